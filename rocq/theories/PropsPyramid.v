(** C25, C26, C27, C28, C29, C30: multiscale streams. Vocabulary: PyramidSpec.v, StoreSpec.v, RunSpec.v. *)
Require Import ZArith List Bool String Ascii Lia Zify.
Require Import Verif.Base Verif.Spec Verif.Dim Verif.Limits Verif.World Verif.SinkProofs Verif.Writer Verif.Stream Verif.Api
  Verif.SettingsSpec Verif.ValidProofs Verif.SessionSpec Verif.SessionProofs Verif.PyramidSpec Verif.StoreSpec Verif.LevelProofs Verif.StreamProofs Verif.PyramidProofs Verif.LevelsProofs
  Verif.ChunkStore Verif.StoreProofs Verif.AppendProofs Verif.RunSpec Verif.RunProofs Verif.MetaSpec Verif.PropsMeta Verif.PropsChunks Verif.PropsStore Verif.Examples Verif.ExamplesUse.
Import ListNotations.
Open Scope string_scope.
Open Scope list_scope.
Open Scope Z_scope.

(** *** C25 *)
(** Creation of a multiscale stream ends where some dimension that is not a channel has extent above 0 and chunks above 1 ([fair_use] asks for
    one), and makes the levels up to the first where a chunk shrinks. Full statement: for all valid settings; false: C25_hangs. *)
Theorem C25_creation_terminates_partial : forall u,
  fair_use u -> st_multi (u_set u) = true ->
  exists N s w, api_create (u_env u) (Some (u_set u)) (u_world u) = (w, Ok (Some s)) /\
    last_level (u_dims u) N /\ List.length (s_writers s) = S N.
Proof.
  intros u HU M. destruct (created u HU) as (s & w & R & I & _). exists (List.length (u_Lr u)), s, w. split; [exact R|]. split; [apply level_count; auto|].
  destruct (si_lv _ _ _ _ _ _ _ _ _ _ _ I) as (A & _). exact A.
Qed.
(** the bound on the iterations in the model does not matter *)
Theorem C25_more_iterations : forall f f' v3 c l, pyramid f v3 c = Ok l -> (f <= f')%nat -> pyramid f' v3 c = Ok l.
Proof.
  induction f as [|f IH]; intros f' v3 c l H Hle; [discriminate|]. destruct f' as [|f']; [lia|]. cbn in *.
  destruct (downsample c) as [[c' again]| | |]; cbn in *; try discriminate. destruct (make_writer v3 c') as [a| | |]; cbn in *; try discriminate.
  destruct again; [|exact H]. destruct (pyramid f v3 c') as [l'| | |] eqn:P; cbn in *; try discriminate. rewrite (IH f' v3 c' l' P) by lia. exact H.
Qed.
(** Where no dimension can be downsampled, the loop never ends, whatever the number of iterations, and neither does create. *)
Definition set_multi (st : settings) : settings :=
  mksettings (st_path st) (st_meta st) (st_s3 st) (st_comp st) (st_dims st) true (st_dtype st) (st_version st).
Theorem C25_hangs : forall u,
  fair_use u -> st_multi (u_set u) = false ->
  0 <= d_array (u_d0 u) < 2 ^ 32 - 1 -> d_array (u_d0 u) + d_chunk (u_d0 u) <= 2 ^ 32 ->
  (forall d, In d (u_dims u) -> ~ can_shrink d) ->
  (forall fuel, pyramid fuel (st_version (u_set u) =? 3)
     (mkconfig (u_dims u) (st_dtype (u_set u)) 0 (u_bk u) (u_root u) (option_map blosc_of (st_comp (u_set u)))) = Hang) /\
  snd (api_create (u_env u) (Some (set_multi (u_set u))) (u_world u)) = Hang.
Proof.
  intros u HU M H1 H2 HS.
  assert (ST : Forall stuck (u_dims u)).
  { apply Forall_forall. intros d Hd. specialize (HS d Hd). unfold can_shrink in HS. unfold stuck.
    assert (P : 0 <= d_array d /\ 0 < d_chunk d).
    { destruct (fu_fits _ HU). destruct Hd as [<-|Hd]; [lia|]. rewrite Forall_forall in fit_inner. destruct (fit_inner d Hd) as (? & ? & ?). lia. }
    destruct (Z.eq_dec (d_type d) ty_channel); [auto|]. destruct (Z.eq_dec (d_array d) 0); [auto|]. right. right. split; [lia|].
    destruct (Z.le_gt_cases (d_chunk d) 1); [lia|]. exfalso. apply HS. repeat split; auto; lia. }
  assert (PH : forall fuel, pyramid fuel (st_version (u_set u) =? 3) (cfg0 u) = Hang).
  { intros fuel. eapply (pyramid_hang _ _ _ _ _ _ _ _ _ (u_t u) (u_Ht u HU) (proj1 (u_mxl u HU))); [exact (u_good u HU)|split; [exact H1|exact H2]|]. apply stuck_forever. exact ST. }
  split; [exact PH|].
  destruct (validate_settings_spec (u_env u) (u_world u) (u_set u) (fu_typed _ HU) (fu_strings _ HU)) as (b & HV & Hb). assert (b = true) as -> by (apply Hb; exact (fu_doc _ HU)).
  destruct (u_commit u HU) as (s0 & HC & C1 & C2 & C3 & C4 & C5 & C6 & C7 & C8).
  destruct (u_writers u HU s0 [] C1 C2 C3 C4 C5 C6 C8) as (ws & HW & F2).
  set (s0' := mkstream (s_v3 s0) (s_root s0) (s_bucket s0) (s_comp s0) (s_custom s0) (s_dtype s0) (s_dims s0) true (s_fbuf s0) (s_foff s0) (s_writers s0) (s_msinks s0) (s_scaled s0) (s_leaked s0)).
  assert (HC' : commit (set_multi (u_set u)) = Ok s0').
  { unfold commit in *. cbn [set_multi st_path st_meta st_s3 st_comp st_dims st_multi st_dtype st_version]. destruct (make_dimensions _); try discriminate. injection HC as <-. reflexivity. }
  set (s1 := set_fbuf s0' (zrep 0 (u_frame u)) 0).
  assert (TR : u_bk u = None -> tree (u_env u) (u_world u)). { intros _ d p A B C D. exact (fu_disk _ HU d p A B D C). }
  destruct (create_store_ok (u_env u) (u_calm u HU) (st_version (u_set u) =? 3) (u_root u) (u_bk u) (List.length (u_mids u)) (proj1 (fu_path _ HU)) (proj2 (fu_path _ HU)) (u_bucket u HU) (u_L0 u) (u_Lr u) (u_lgood u HU) s1 (u_world u) C2 C3 (fu_err _ HU) TR (fu_conns _ HU)) as (w1 & R1 & _).
  assert (CW : create_writers s1 = Hang).
  { unfold create_writers in *. assert (BC : forall x, base_config (set_fbuf s0 x 0) = cfg0 u) by (intros; unfold base_config, cfg0; cbn; rewrite C2, C3, C4, C5, C8; reflexivity).
    change (base_config s1) with (base_config (set_fbuf s0 [] 0)). rewrite BC in *. change (s_v3 s1) with (s_v3 s0). change (s_v3 (set_fbuf s0 [] 0)) with (s_v3 s0) in HW.
    destruct (make_writer (s_v3 s0) (cfg0 u)) as [a| | |]; cbn [obind] in *; try discriminate. change (s_multi s1) with true. cbv iota. rewrite C1, PH. reflexivity. }
  unfold api_create, catchM, new_stream, bind. change (validate_settings (u_env u) (u_world u) (Some (set_multi (u_set u)))) with (validate_settings (u_env u) (u_world u) (Some (u_set u))).
  rewrite HV, HC'. unfold liftM at 1.
  assert (BF : bytes_of_frame (s_dims s0') (s_dtype s0') = Ok (u_frame u)).
  { cbn [s_dims s_dtype s0']. rewrite C4, C5. exact (DimProofs.bytes_of_frame_exact _ _ _ _ _ _ (fu_fits _ HU) (fu_bpp _ HU)). }
  rewrite BF. unfold liftM at 1. fold s1. rewrite R1. cbn [expectM]. unfold ret at 1. rewrite CW. reflexivity.
Qed.
Example C25_hangs_hypotheses : let u := ex_gen ty_channel true 3 true None false dt_uint16 2 ex_d0 in
  fair_use u /\ st_multi (u_set u) = false /\ 0 <= d_array (u_d0 u) < 2 ^ 32 - 1 /\ d_array (u_d0 u) + d_chunk (u_d0 u) <= 2 ^ 32 /\
  forall d, In d (u_dims u) -> ~ can_shrink d.
Proof.
  split; [apply ex_gen_fair; [vm_compute; split; discriminate|auto|auto|auto|cbn; auto|cbn; auto]|]. split; [reflexivity|]. split; [cbn; lia|]. split; [cbn; lia|].
  intros d Hd (A & B & C). cbn in Hd. decompose [or] Hd; try contradiction; subst d; vm_compute in B, C; discriminate.
Qed.

(** *** C26, C27 *)
(** Level k is stored with the extents of PyramidSpec.v ([at_level]: ceil (extent / 2^k), channels unchanged; the array documents say so,
    C06_C26_array_documents), holds floor (n / 2^k) frames [G k], each of the level's size, and the stored chunks are those of [G k]. *)
Theorem C26_C27_levels : forall u groups,
  fair_use u -> whole_frames u groups ->
  exists G, G 0%nat = List.concat groups /\
    forall k, is_level u k ->
      zlen (G k) = zlen (List.concat groups) / 2 ^ Z.of_nat k /\
      Forall (fun f => zlen f = lv_H u k * lv_W u k * u_bpp u) (G k) /\
      (st_version (u_set u) = 2 -> level_v2 u groups k (G k)) /\
      (st_version (u_set u) = 3 -> level_v3 u groups k (G k)).
Proof.
  intros u groups HU HG. exists (u_frames u (List.concat groups)). destruct (u_levels u HU (List.concat groups) (frames_whole u groups HG)) as [A B C D]. split; [exact A|].
  intros k Hk. split; [apply B|]. split; [apply C; exact Hk|]. split; intros V; [apply s_level_v2; auto|apply s_level_v3; auto].
Qed.
(** extents of level k *)
Theorem C26_extents : forall u k,
  fair_use u -> is_level u k -> (1 <= k)%nat ->
  Forall2 (fun d d' => if d_type d =? ty_channel then d_array d' = d_array d else d_array d' = ceil_div (d_array d) (2 ^ Z.of_nat k)) (u_dims u) (lv_dims u k).
Proof.
  intros u k HU Hk K1. unfold lv_dims. induction (u_dims u) as [|d l IH]; cbn [map]; constructor; auto.
  unfold at_level. destruct (Nat.eqb_spec k 0); [lia|]. cbn [orb]. destruct (d_type d =? ty_channel); [reflexivity|]. destruct (Z.eqb_spec (d_array d) 0) as [Z0|Z0]; [|reflexivity].
  cbn. rewrite Z0. unfold ceil_div. symmetry. apply Z.div_small. assert (0 < 2 ^ Z.of_nat k) by (apply Z.pow_pos_nonneg; lia). lia.
Qed.

(** *** C28, C27 for 8-bit unsigned pixels: frame j of level k + 1 is the mean of frames 2j and 2j + 1 of level k at half the resolution *)
(** Full statement (C28): for every data type. False: C28_refuted. *)
Theorem C27_C28_uint8_partial : forall u groups,
  fair_use u -> whole_frames u groups -> st_dtype (u_set u) = dt_uint8 -> Forall (Forall (fun b => 0 <= b < 256)) (List.concat groups) ->
  exists G, G 0%nat = List.concat groups /\
    (forall k, is_level u (S k) -> next_level (lv_W u k) (lv_H u k) (G k) (G (S k))) /\
    (forall k, is_level u k ->
      (st_version (u_set u) = 2 -> level_v2 u groups k (G k)) /\
      (st_version (u_set u) = 3 -> level_v3 u groups k (G k))).
Proof.
  intros u groups HU HG H8 HB. exists (u_frames u (List.concat groups)). destruct (u_levels u HU (List.concat groups) (frames_whole u groups HG)) as [A B C D]. split; [exact A|].
  split; [intros k Hk; apply D; auto|]. intros k Hk. split; intros V; [apply s_level_v2; auto|apply s_level_v3; auto].
Qed.
(** Six frames whose pixels are all 300 (bytes 44, 1); the pixels of level 1 are 22 *)
Definition ex_300 : list (list (list Z)) := [repeat (List.concat (repeat [44; 1] 35)) 6].
Theorem C28_refuted : exists u groups raw,
  fair_use u /\ whole_frames u groups /\ succeeds u groups /\ st_dtype (u_set u) = dt_uint16 /\ is_level u 1 /\
  Forall (fun f => forall k, 0 <= k < 35 -> getb f (2 * k) + 256 * getb f (2 * k + 1) = 300) (List.concat groups) /\
  key u groups "1/0/0/0/0" = Some raw /\ getb raw 0 + 256 * getb raw 1 = 22.
Proof.
  exists (ex_use 2 false None true dt_uint16 2 ex_d0), ex_300. eexists.
  assert (HU : fair_use (ex_use 2 false None true dt_uint16 2 ex_d0)) by (apply ex_use_fair; cbn; auto).
  assert (HG : whole_frames (ex_use 2 false None true dt_uint16 2 ex_d0) ex_300). { split; [repeat constructor|reflexivity]. }
  split; [exact HU|]. split; [exact HG|]. split; [apply a_succeeds; auto|]. split; [reflexivity|]. split; [apply is_level_nth; [exact HU|]; eexists; vm_compute; reflexivity|].
  split; [|split; [vm_compute; reflexivity|reflexivity]].
  change (List.concat ex_300) with (repeat (List.concat (repeat [44; 1] 35)) 6). apply Forall_forall. intros f Hf. apply repeat_spec in Hf. subst f. intros k Hk.
  assert (H : forallb (fun k => getb (List.concat (repeat [44; 1] 35)) (2 * k) + 256 * getb (List.concat (repeat [44; 1] 35)) (2 * k + 1) =? 300) (zseq 35) = true) by (vm_compute; reflexivity).
  rewrite forallb_forall in H. apply Z.eqb_eq. apply H. unfold zseq. apply in_map_iff. exists (Z.to_nat k). split; [lia|]. apply in_seq. lia.
Qed.

(** *** C29 *)
(** Two sessions whose frames of channel 0 are the same (3 channels: frames 0, 3, 6, ...) store different pixels in channel 0 of level 1.
    C27_C28_uint8_partial says from which frames they are computed: 0 and 1, that is channels 0 and 1. *)
Definition ex_chan (x : Z) : list (list (list Z)) := [List.concat (repeat [repeat 10 35; repeat x 35; repeat 30 35] 4)].
Theorem C29_refuted : exists u groups groups',
  fair_use u /\ whole_frames u groups /\ whole_frames u groups' /\ map d_array (u_mids u) = [3] /\ is_level u 1 /\
  (forall t, nth (3 * t) (List.concat groups) [] = nth (3 * t) (List.concat groups') []) /\
  let read g := read_v2 (stored (u_env u) (w_trace (after u g)) (u_bk u)) (u_dec u) (u_root u ++ "/1") (map d_chunk (lv_dims u 1)) 1 [0; 0; 0; 0] 0 in
  read groups = 15 /\ read groups' = 55.
Proof.
  exists (ex_use 2 false None true dt_uint8 1 ex_d0), (ex_chan 20), (ex_chan 100).
  assert (HU : fair_use (ex_use 2 false None true dt_uint8 1 ex_d0)) by (apply ex_use_fair; cbn; auto).
  assert (HG : forall x, whole_frames (ex_use 2 false None true dt_uint8 1 ex_d0) (ex_chan x)). { intros x. split; [repeat constructor|reflexivity]. }
  split; [exact HU|]. split; [apply HG|]. split; [apply HG|]. split; [reflexivity|]. split; [apply is_level_nth; [exact HU|]; eexists; vm_compute; reflexivity|].
  split.
  - intros t. destruct (Nat.ltb_spec t 4) as [H|H].
    + assert (t = 0 \/ t = 1 \/ t = 2 \/ t = 3)%nat as [->|[->|[->| ->]]] by lia; reflexivity.
    + rewrite !nth_overflow; auto; change (List.length (List.concat (ex_chan _))) with 12%nat; lia.
  - split; vm_compute; reflexivity.
Qed.
(** Frames 2j and 2j + 1 always lie at different positions of the innermost middle dimension (length [a]) if it has more than one. *)
Theorem C29_always_mixed : forall A a j, Forall (fun x => 0 < x) A -> 1 < a -> 0 <= j ->
  (2 * j) mod prodZ (A ++ [a]) mod a <> (2 * j + 1) mod prodZ (A ++ [a]) mod a.
Proof.
  intros A a j HA Ha Hj.
  assert (P : prodZ (A ++ [a]) = prodZ A * a). { clear. induction A as [|x A IH]; cbn in *; [lia|]. unfold prodZ in *. cbn in *. rewrite IH. ring. }
  assert (Q : 0 < prodZ A). { clear - HA. induction HA as [|x A Hx HA IH]; cbn; [lia|]. unfold prodZ in *. cbn. lia. }
  rewrite P. set (p := prodZ A) in *. clearbody p. clear - Ha Hj Q.
  assert (X : forall n, n mod (p * a) mod a = n mod a).
  { intros n. symmetry. assert (PA : 0 < p * a) by (apply Z.mul_pos_pos; lia). rewrite (Z.mod_eq n (p * a)) by lia. replace (n - p * a * (n / (p * a))) with (n + (- (p * (n / (p * a)))) * a) by ring. rewrite Z.mod_add by lia. reflexivity. }
  rewrite !X. intros H. assert (D : (2 * j + 1 - 2 * j) mod a = 0) by (rewrite Zminus_mod, H, Z.sub_diag; apply Z.mod_0_l; lia).
  replace (2 * j + 1 - 2 * j) with 1 in D by ring. rewrite Z.mod_small in D by lia. discriminate.
Qed.

(** *** C30 *)
(** [running u groups s w]: the stream [s] and machine [w] after the appends of [groups]. The image buffers allocated for the levels and not
    deleted are the images waiting for their pair, at most one per level, and [s_leaked s] buffers no pointer refers to. *)
Definition waiting (s : stream) : Z := zlen (List.filter (fun o => match o with Some _ => true | None => false end) (s_scaled s)).
Definition images (s : stream) : Z := waiting s + s_leaked s.
Definition lost (N : nat) (n : Z) : Z := fold_right Z.add 0 (map (fun k => n / 2 ^ Z.of_nat k) (seq 1 (N - 1))).

Lemma filter_le {X} (p : X -> bool) l : (List.length (filter p l) <= List.length l)%nat.
Proof. induction l as [|x l IH]; cbn; [lia|]. destruct (p x); cbn; lia. Qed.

(** exactly [n / 2 + ... + n / 2^(N-1)] buffers are lost after [n] frames; nothing but them and the waiting images is held *)
Theorem C30_exact : forall u groups s w,
  fair_use u -> whole_frames u groups -> st_multi (u_set u) = true -> running u groups s w ->
  exists N, last_level (u_dims u) N /\ s_leaked s = lost N (zlen (List.concat groups)) /\ 0 <= waiting s <= Z.of_nat N + 1 /\
    s_foff s = 0 /\ zlen (s_fbuf s) = u_frame u.
Proof.
  intros u groups s w HU HG M R. exists (List.length (u_Lr u)). split; [apply level_count; auto|].
  destruct (run_state u HU groups HG) as (s' & w' & Fs & R' & I & HM & HF). destruct (running_unique u groups s w s' w' R R') as [-> ->].
  split; [|split; [|split]].
  - rewrite (si_leak _ _ _ _ _ _ _ _ _ _ _ I). unfold leaksum, lost. cbn [List.length]. replace (S (List.length (u_Lr u)) - 2)%nat with (List.length (u_Lr u) - 1)%nat by lia. f_equal. apply map_ext_in.
    intros k Hk. apply in_seq in Hk. destruct (level_exists u k ltac:(lia)) as [L HL]. rewrite (HF k L HL). apply frames_count.
  - destruct (si_sync _ _ _ _ _ _ _ _ _ _ _ I (HM M)) as [X _]. unfold waiting, zlen. pose proof (filter_le (fun o : option (list Z) => match o with Some _ => true | None => false end) (s_scaled s)) as Y. cbn [List.length] in X. lia.
  - exact (si_off _ _ _ _ _ _ _ _ _ _ _ I).
  - exact (si_buf _ _ _ _ _ _ _ _ _ _ _ I).
Qed.
(** With one downscaled level, or none, the memory is bounded whatever the number of frames. Full statement: for every number of levels. *)
Theorem C30_one_level_partial : forall u groups s w,
  fair_use u -> whole_frames u groups -> st_multi (u_set u) = true -> running u groups s w -> last_level (u_dims u) 1 ->
  0 <= images s <= 2.
Proof.
  intros u groups s w HU HG M1 R M. destruct (C30_exact u groups s w HU HG M1 R) as (N & HN & HL & HW & _).
  assert (N = 1%nat). { destruct M as (A & B & C), HN as (A' & B' & C'). destruct (Nat.lt_trichotomy N 1) as [H|[H|H]]; [lia|auto|]. exfalso. apply (C' 1%nat); auto. }
  subst N. unfold images. rewrite HL. cbn. lia.
Qed.
Theorem C30_not_multiscale_partial : forall u groups s w,
  fair_use u -> whole_frames u groups -> st_multi (u_set u) = false -> running u groups s w -> s_leaked s = 0.
Proof.
  intros u groups s w HU HG M R. assert (L : u_Lr u = []) by (unfold u_Lr; rewrite M; reflexivity).
  destruct (run_state u HU groups HG) as (s' & w' & Fs & R' & I & HM & HF). destruct (running_unique u groups s w s' w' R R') as [-> ->].
  rewrite (si_leak _ _ _ _ _ _ _ _ _ _ _ I). unfold leaksum. rewrite L. reflexivity.
Qed.
(** From two downscaled levels on, every two frames lose at least one buffer: no bound holds for all streams of these settings. *)
Theorem C30_grows : forall u groups s w N,
  fair_use u -> whole_frames u groups -> st_multi (u_set u) = true -> running u groups s w ->
  last_level (u_dims u) N -> (2 <= N)%nat ->
  zlen (List.concat groups) / 2 <= images s.
Proof.
  intros u groups s w N HU HG M R HN H2. destruct (C30_exact u groups s w HU HG M R) as (N' & HN' & HL & HW & _).
  assert (N' = N). { destruct HN as (A & B & C), HN' as (A' & B' & C'). destruct (Nat.lt_trichotomy N' N) as [H|[H|H]]; [|auto|]; exfalso; [apply (C N')|apply (C' N)]; auto. }
  subst N'. unfold images. rewrite HL. unfold lost. destruct N as [|[|N]]; try lia. cbn [Nat.sub seq map fold_right]. change (2 ^ Z.of_nat 1) with 2.
  assert (X : 0 <= fold_right Z.add 0 (map (fun k => zlen (List.concat groups) / 2 ^ Z.of_nat k) (seq 2 N))).
  { generalize (seq 2 N). intros l. induction l as [|k l IH]; cbn; [lia|]. assert (0 <= zlen (List.concat groups) / 2 ^ Z.of_nat k); [|lia]. apply Z.div_pos; [unfold zlen; lia|]. apply Z.pow_pos_nonneg; lia. }
  lia.
Qed.
Theorem C30_refuted : exists u, fair_use u /\ forall B, 0 <= B < 2 ^ 30 -> exists groups s w, whole_frames u groups /\ running u groups s w /\ B < images s.
Proof.
  set (u := ex_use 2 false None true dt_uint8 1 ex_d0). assert (HU : fair_use u) by (apply ex_use_fair; cbn; auto). exists u. split; [exact HU|].
  intros B HB. set (groups := [repeat (repeat 7 35) (Z.to_nat (2 * (B + 1)))]).
  assert (HC : zlen (List.concat groups) = 2 * (B + 1)). { unfold groups, zlen. cbn [List.concat]. rewrite app_nil_r, repeat_length. lia. }
  assert (HG : whole_frames u groups).
  { split; [|rewrite HC; lia]. constructor; [|constructor]. apply Forall_forall. intros f Hf. apply repeat_spec in Hf. subst f. reflexivity. }
  destruct (run_state u HU groups HG) as (s & w & Fs & R & _). exists groups, s, w. split; [exact HG|]. split; [exact R|].
  pose proof (C30_grows u groups s w 2 HU HG eq_refl R ex_last_level ltac:(lia)) as X. rewrite HC in X. rewrite Z.mul_comm, Z.div_mul in X by lia. lia.
Qed.

(** the hypotheses of the theorems above are met: 12 frames, three levels, and one use with two levels *)
Example pyramid_hypotheses : forall v, v = 2 \/ v = 3 ->
  let u := ex_use v true None true dt_uint8 1 ex_d0 in let groups := ex_groups 1 12 in
  fair_use u /\ whole_frames u groups /\ st_multi (u_set u) = true /\ is_level u 2 /\ st_dtype (u_set u) = dt_uint8 /\
  Forall (Forall (fun b => 0 <= b < 256)) (List.concat groups) /\ (v = 3 -> finished u 1 (zlen (List.concat groups) / 2 ^ 1)) /\
  exists s w, running u groups s w.
Proof.
  intros v V. assert (HU : fair_use (ex_use v true None true dt_uint8 1 ex_d0)) by (apply ex_use_fair; cbn; auto).
  assert (HG : whole_frames (ex_use v true None true dt_uint8 1 ex_d0) (ex_groups 1 12)) by (apply ex_frames_whole; lia).
  split; [exact HU|]. split; [exact HG|]. split; [reflexivity|]. split; [apply is_level_nth; [exact HU|]; destruct V; subst v; eexists; vm_compute; reflexivity|]. split; [reflexivity|].
  split; [|split].
  - rewrite ex_groups_frames. unfold ex_frames, ex_frame. apply Forall_map. apply Forall_forall. intros i _. apply Forall_map. apply Forall_forall. intros k _. assert (X := Z.mod_pos_bound (40 * Z.of_nat i + k) 251 eq_refl). lia.
  - intros ->. vm_compute. auto.
  - destruct (run_state _ HU _ HG) as (s & w & Fs & R & _). eauto.
Qed.
Example C30_one_level_hypotheses :
  let u := ex_use 3 false None true dt_uint16 2 (mkdim "t" ty_time 6 5 1) in let groups := ex_groups 2 9 in
  fair_use u /\ whole_frames u groups /\ st_multi (u_set u) = true /\ last_level (u_dims u) 1 /\ exists s w, running u groups s w.
Proof.
  set (u := ex_use 3 false None true dt_uint16 2 (mkdim "t" ty_time 6 5 1)). assert (HU : fair_use u) by (apply ex_use_fair; cbn; auto 10).
  assert (HG : whole_frames u (ex_groups 2 9)) by (apply ex_frames_whole; lia).
  split; [exact HU|]. split; [exact HG|]. split; [reflexivity|]. split.
  - split; [lia|]. split; [|lia]. exists (mkdim "t" ty_time 6 5 1). split; [left; reflexivity|]. split; [discriminate|]. split; vm_compute; reflexivity.
  - destruct (run_state _ HU _ HG) as (s & w & Fs & R & _). eauto.
Qed.

Print Assumptions C25_creation_terminates_partial.
Print Assumptions C25_more_iterations.
Print Assumptions C25_hangs.
Print Assumptions C26_C27_levels.
Print Assumptions C26_extents.
Print Assumptions C27_C28_uint8_partial.
Print Assumptions C28_refuted.
Print Assumptions C29_refuted.
Print Assumptions C29_always_mixed.
Print Assumptions C30_exact.
Print Assumptions C30_one_level_partial.
Print Assumptions C30_not_multiscale_partial.
Print Assumptions C30_grows.
Print Assumptions C30_refuted.
