(** C14, Zarr V3 on S3: which shards are in the bucket when the stream has been destroyed. [item], [where_is] are in LayoutSpec.v, [row_frames],
    [pieces], [belongs] in GridSpec.v, [uploads] in OnceSpec.v, [sized], [whole_calls] in SafeSpec.v, [store_at] in FrameSpec.v. *)
Require Import ZArith List Bool String Lia.
Require Import Verif.Base Verif.Spec Verif.Dim Verif.Limits Verif.World Verif.Writer Verif.Stream Verif.Api Verif.SettingsSpec Verif.SessionSpec Verif.PyramidSpec Verif.StoreSpec Verif.SafeSpec
  Verif.FrameSpec Verif.LayoutSpec Verif.GridSpec Verif.OnceSpec.
Require Import Verif.FrameStream Verif.ExamplesUse Verif.PropsChunks Verif.PropsSafe Verif.PropsGrid.
Require Verif.ChunkStore Verif.StoreProofs Verif.LevelsProofs Verif.Examples Verif.GridProofs Verif.GridStream Verif.GridLevels Verif.SafeStream Verif.OnceProofs Verif.OnceStream Verif.LostStream Verif.PropsFrame Verif.PropsLayout Verif.PropsOnce Verif.Radix Verif.SessionProofs Verif.MetaProofs Verif.DimProofs Verif.PyramidProofs.
Import ListNotations.
Open Scope string_scope. Open Scope list_scope. Open Scope Z_scope.

(** Whatever the server refuses: if every append call succeeded, a shard of level [i] whose row of shards is not full with the n/2^i frames of
    that level is never uploaded, neither by an append call nor by destroy. *)
Theorem C14_v3_unfinished_shards_lost : forall E st frame calls n b root l d0 mids dy dx w,
  sized st frame -> whole_calls frame calls -> bytes_given calls = n * frame -> n + zlen calls + 1 < 2 ^ 32 ->
  st_version st = 3 -> st_dims st = Some l -> map dim_of l = d0 :: mids ++ [dy; dx] ->
  store_at st (Some b) root -> root <> "" -> w_trace w = [] ->
  match snd (session E st calls w) with Ok (Some (rs, _)) => Forall (fun r => fst r = st_success) rs | Ok None => True | _ => False end ->
  forall i q cc, 0 <= q -> in_bounds (map (pieces true) (map (at_level i) (mids ++ [dy; dx]))) cc ->
    n / 2 ^ Z.of_nat i < (q + 1) * row_frames true d0 mids i ->
    uploads b (where_is true root (Piece (Z.of_nat i) q cc)) (w_trace (fst (session E st calls w))) = 0.
Proof.
  intros E st frame calls n b root l d0 mids dy dx w Hs Hc Hb Hn V Hl Hd Hst Hroot Hw HS i q cc Hq Hcc Hlost.
  destruct Hs as [_ _ (l' & e0 & m' & ey & ex & bpp & L1 & D & B & Fr & F & Sh & M)].
  rewrite L1 in Hl. injection Hl as ->. rewrite D in Hd. destruct (dims_unique _ _ _ _ _ _ _ _ Hd) as (-> & -> & -> & ->).
  pose proof (PropsFrame.store_place _ _ _ Hst) as HP.
  assert (Multi : Stream.st_multi st = true -> PyramidProofs.small0 d0 /\ exists d, In d (d0 :: mids ++ [dy; dx]) /\ can_shrink d) by (intros Mu; destruct (M Mu) as (M1 & _ & _ & M2); split; [exact M1|exact M2]).
  assert (V3 : (st_version st =? 3) = true) by (rewrite V; reflexivity).
  set (L := SafeStream.gbase st d0 mids dy dx :: SafeStream.glevels st d0 mids dy dx).
  set (kd := where_is true root (Piece (Z.of_nat i) q cc)).
  set (nd := List.length (d0 :: mids ++ [dy; dx])).
  assert (Hnd : (3 <= nd)%nat) by (unfold nd; cbn; rewrite app_length; cbn; lia).
  assert (Hlc : List.length cc = (nd - 1)%nat) by (rewrite <- (Radix.in_bounds_length _ _ Hcc), !map_length; unfold nd; cbn; lia).
  assert (Sd : sensible true (nd - 1) (Piece (Z.of_nat i) q cc)) by (repeat split; auto; [lia|eapply GridLevels.in_bounds_nonneg; exact Hcc]).
  assert (Role : Some b = Some b -> forall it', sensible true (nd - 1) it' -> where_is true root it' = kd -> Some (Piece (Z.of_nat i) q cc) = Some it').
  { intros _ it' S3 S4. f_equal. apply (PropsLayout.C38_distinct_paths true root (nd - 1)); [lia|exact Sd|exact S3|symmetry; exact S4]. }
  assert (Rt : root <> "" /\ (Some b = None -> String.prefix "file:" root = false)) by (split; [exact Hroot|discriminate]).
  assert (FP : 0 < frame) by (subst frame; exact (GridLevels.frames_pos st d0 mids dy dx bpp F Sh)).
  assert (LG := fun j g => GridLevels.L_geo st d0 mids dy dx bpp F Sh Multi j g). fold L in LG.
  destruct (GridLevels.root_eq st d0 mids dy dx (Some b) root HP) as [R1 R2].
  assert (Hcs : forall j c, nth_error (map SafeStream.g_c L) j = Some c -> c_level c = Z.of_nat j /\ c_root c = root /\ c_bucket c = Some b /\ List.length (c_dims c) = nd).
  { intros j c Hj. rewrite nth_error_map in Hj. destruct (nth_error L j) as [g|] eqn:G; [|discriminate]. cbn in Hj. injection Hj as <-. destruct (LG j g G) as ([G1 G2 G3 G4 G5 G6 G7 G8] & _). rewrite G6, G7, G8, R1, R2. repeat split. rewrite G5, G2. unfold nd. cbn. rewrite !app_length, map_length. reflexivity. }
  assert (Fm : forall s m, commit st = Ok s -> bytes_of_frame (s_dims s) (s_dtype s) = Ok m -> m = frame) by (subst frame; exact (GridLevels.frame_made st l d0 mids dy dx bpp L1 D B F)).
  assert (Wm : forall s ws, commit st = Ok s -> create_writers s = Ok ws -> Forall2 (fun g a => make_writer true (SafeStream.g_c g) = Ok a) L ws) by (rewrite <- V3; exact (GridLevels.writers_made st l d0 mids dy dx bpp L1 D F Sh Multi)).
  assert (HB : bytes_given calls + frame * (zlen calls + 1) < 2 ^ 32 * frame) by (rewrite Hb; nia).
  assert (Z0 : OnceProofs.cnt b kd w = 0) by (unfold OnceProofs.cnt; rewrite Hw; reflexivity).
  assert (Ge : OnceProofs.cnt b kd (fst (session E st calls w)) <= 0); [|unfold OnceProofs.cnt in Ge; pose proof (PropsOnce.uploads_nonneg b kd (w_trace (fst (session E st calls w)))); lia].
  destruct (nth_error L i) as [gi|] eqn:Hi.
  - destruct (LG i gi Hi) as (Gi & _). pose proof (GridLevels.L_row st d0 mids dy dx i gi Gi) as RW. rewrite V3 in RW.
    assert (HL : forall j g, nth_error L j = Some g -> GridStream.lev true bpp (fun _ => True) (fun j => n / 2 ^ Z.of_nat j) j g).
    { intros j g Hj. destruct (GridLevels.L_lev st d0 mids dy dx bpp (Some b) root n true F Sh Multi HP Rt j g Hj) as [K1 K2 K3 K4 K5 _ _]. rewrite V3 in K2. split; auto. }
    assert (HK : exists Ks, Forall2 (fun d K => zlen d = Z.of_nat K * frame) calls Ks).
    { clear - Hc. induction Hc as [|d l (k & K) _ (Ks & IH)]; [exists []; constructor|]. exists (k :: Ks). constructor; auto. }
    destruct HK as (Ks & HK).
    assert (HT : fold_right (fun K z => Z.of_nat K + z) 0 Ks = n).
    { assert (X : bytes_given calls = fold_right (fun K z => Z.of_nat K + z) 0 Ks * frame). { clear - HK. unfold bytes_given. induction HK; cbn [fold_right]; [reflexivity|]. rewrite IHHK, H. ring. } rewrite X in Hb. nia. }
    assert (Hcc' : in_bounds (map (GridProofs.np true) (SafeStream.g_m gi ++ [SafeStream.g_y gi; SafeStream.g_x gi])) cc).
    { destruct Gi as [G1 G2 G3 G4 _ _ _ _]. rewrite G2, G3, G4. rewrite (map_app (at_level i)) in Hcc. exact Hcc. }
    assert (N32 : n < 2 ^ 32) by (pose proof (Radix.zlen_nonneg calls); lia).
    rewrite <- RW in Hlost.
    exact (LostStream.l_session E b kd root nd L bpp frame n i gi q cc Hnd Hcs Role HL Hi Hq Hcc' eq_refl Sd FP Hlost N32 st calls Ks HP (eq_sym V3) Fm Wm HK HT HB w Z0 HS).
  - (* no such level *)
    set (it := Some (Piece (Z.of_nat i) q cc)).
    assert (HT : forall m j f tw, OnceStream.T b kd true (map SafeStream.g_c L) frame it 0 (fun _ _ => True) m j f tw -> OnceProofs.cnt b kd (snd tw) <= 0) by (intros m j f tw; apply (OnceStream.T_cnt b kd true nd (map SafeStream.g_c L) frame it Hnd)).
    assert (Nw : forall s ws, commit st = Ok s -> create_writers s = Ok ws -> Forall2 (OnceProofs.bw true) (map SafeStream.g_c L) ws /\ Forall OnceStream.new_w ws).
    { intros s ws X Y. specialize (Wm s ws X Y). clear - Wm. induction Wm as [|g a l ws H _ [I1 I2]]; [split; constructor|]. destruct (LostStream.fresh3 _ _ H) as [S1 S2]. split; constructor; auto. }
    assert (Sum : forall ws p, Forall OnceStream.new_w ws -> (p + List.length ws <= i)%nat -> OnceStream.wsum b kd it p ws = 0).
    { clear. induction ws as [|a ws IH]; intros p H Hp; [reflexivity|]. inversion H as [|? ? (A1 & A2 & A3) H2]; subst. cbn [OnceStream.wsum List.length] in *. rewrite (IH (S p) H2) by lia. unfold OnceStream.mayi, OnceProofs.may, OnceProofs.futq, OnceProofs.futm, OnceStream.qof, OnceStream.mtf, it. rewrite A1, A2. destruct (Z.eqb_spec (Z.of_nat i) (Z.of_nat p)); [lia|]. reflexivity. }
    apply (OnceStream.t_session E b kd true root (Some b) nd (map SafeStream.g_c L) frame it Hnd Hcs Role 0 (fun _ _ => True) (fun _ _ _ _ _ _ _ _ _ _ _ _ => I) FP 0 (HT 0 0%nat 0) st calls 0);
      [lia|lia|exact HP|symmetry; exact V3|exact Fm|intros s ws X Y; split; [exact (Nw s ws X Y)|auto]| |lia|exact Z0].
    intros s ws X Y. destruct (Nw s ws X Y) as [W1 W2]. rewrite (Sum ws 0%nat W2); [unfold OnceStream.dtf, it; lia|]. assert (List.length ws = List.length (map SafeStream.g_c L)) by (clear -W1; induction W1; cbn; congruence). apply nth_error_None in Hi. rewrite map_length in H. lia.
Qed.

(** *** The shards in the bucket after a stream to which every server answered *)
(** the shard at row [q] and place [cc] of level [i] has all its frames *)
Definition full_shard (u : use) (n : Z) (i : nat) (q : Z) (cc : list Z) : Prop :=
  is_level u i /\ in_bounds (map nsh (lv_inner u i)) cc /\ (q + 1) * lv_shard_period u i <= n / 2 ^ Z.of_nat i.

Lemma shard_period_pos u i : fair_use u -> st_version (u_set u) = 3 -> is_level u i -> 0 < lv_shard_period u i.
Proof.
  intros HU V Hi. destruct (proj1 (ChunkStore.is_level_nth u HU i) Hi) as [L HL]. destruct (ChunkStore.level_names u HU i L HL) as (_ & _ & _ & _ & E5 & E6 & E7 & E8).
  destruct (StoreProofs.a_good u HU i L HL) as [GG _]. pose proof (PyramidProofs.g_f _ _ _ _ _ _ _ _ _ _ _ _ _ _ GG) as Hf. destruct (PyramidProofs.g_s _ _ _ _ _ _ _ _ _ _ _ _ _ _ GG) as [Hsh _]; [rewrite V; reflexivity|].
  pose proof (StoreProofs.prodA_pos u HU i L HL) as PA. pose proof (fit_c0 _ _ _ _ _ Hf) as C0. pose proof (fit_s0 _ _ _ _ Hsh) as SS.
  unfold lv_shard_period, lv_period. rewrite <- E5, <- E8. apply Z.mul_pos_pos; [apply Z.mul_pos_pos; lia|lia].
Qed.

(** Exactly the full shards of the grid are in the bucket, with a well-formed index; at every other place is what was there before. *)
Theorem C14_v3_s3_shards : forall u groups b,
  fair_use u -> whole_frames u groups -> w_trace (u_world u) = [] -> st_version (u_set u) = 3 -> u_bk u = Some b ->
  let n := zlen (List.concat groups) in
  n + zlen groups + 1 < 2 ^ 32 ->
  forall i q cc, 0 <= q -> Forall (fun c => 0 <= c) cc -> List.length cc = List.length (u_mids u ++ [u_dy u; u_dx u]) ->
    let k := shard_key (u_root u ++ "/data/root/" ++ dec (Z.of_nat i)) (q :: cc) in
    (full_shard u n i q cc -> exists file, store u groups k = Some file /\ index_ok file (prodZ (map d_shard (lv_dims u i)))) /\
    (~ full_shard u n i q cc -> store u groups k = e_obj0 (u_env u) b k).
Proof.
  intros u groups b U W T V B n Hn i q cc Hq Hcc Hlen k. split.
  - intros (F1 & F2 & F3). destruct (C07_C11_C31_v3_shards u groups U W V) as (G & [G0 Gn G1 G2] & H). fold n in Gn.
    destruct (H i F1 q cc) as (file & A & A2 & _); auto.
    + left. rewrite Gn. exact F3.
    + rewrite Gn. assert (0 < lv_shard_period u i) by (apply (shard_period_pos u i U V F1)). unfold n in *. nia.
    + exists file. split; [exact A|exact A2].
  - intros NF.
    assert (OD : {store u groups k = e_obj0 (u_env u) b k} + {store u groups k <> e_obj0 (u_env u) b k}) by (repeat decide equality).
    destruct OD as [OD|OD]; [exact OD|].
    destruct (C09_nothing_else u groups U W T k) as (it & I1 & I2); [rewrite B; exact OD|].
    assert (Z0 : Piece (Z.of_nat i) q cc = it).
    { rewrite V in I2. apply (PropsLayout.C38_distinct_paths true (u_root u) (List.length (u_mids u ++ [u_dy u; u_dx u]))); auto.
      - rewrite app_length. cbn. lia.
      - repeat split; auto; lia.
      - pose proof (belongs_sensible _ _ _ _ _ _ _ I1) as I3. rewrite V in I3. exact I3. }
    subst it. unfold belongs in I1. rewrite V in I1. cbn [Z.eqb Pos.eqb] in I1. destruct I1 as (j & J1 & J2 & J3 & J4 & J5). apply Nat2Z.inj in J1. subst j.
    destruct (Z_lt_le_dec (n / 2 ^ Z.of_nat i) ((q + 1) * lv_shard_period u i)) as [L|L]; [|destruct NF; split; [exact J2|split; [exact J5|exact L]]].
    destruct (fu_dims _ U) as (l & L1 & D). destruct (given_bytes u groups W) as [G1 G2]. destruct (SessionProofs.session_ok u U groups W) as (w0 & w' & R & _).
    assert (X : uploads b k (w_trace (after u groups)) = 0).
    { apply (C14_v3_unfinished_shards_lost (u_env u) (u_set u) (u_frame u) (calls groups) n b (u_root u) l (u_d0 u) (u_mids u) (u_dy u) (u_dx u) (u_world u)); auto.
      - apply fair_sized; exact U.
      - unfold calls, zlen. rewrite map_length. exact Hn.
      - rewrite <- B. apply fair_store; exact U.
      - apply (fu_path _ U).
      - rewrite R. cbn [snd]. apply Forall_forall. intros r Hr. apply in_map_iff in Hr as (c & <- & _). reflexivity. }
    unfold store, stored. rewrite B. exact (PropsOnce.same_object (u_env u) b k [] (w_trace (after u groups)) X).
Qed.

(** *** The hypotheses can be met *)
(** 19 frames, three levels: the first row of shards of level 0 is full; the first of level 2 has four frames and is not *)
Example C14_lost_hypotheses : forall (groups := ex_groups 1 19) (u := ex_comp 3 true true),
  fair_use u /\ whole_frames u groups /\ w_trace (u_world u) = [] /\ st_version (u_set u) = 3 /\ u_bk u = Some "bucket" /\ zlen (List.concat groups) + zlen groups + 1 < 2 ^ 32 /\
  full_shard u 19 0 0 [0; 0; 0] /\ ~ full_shard u 19 2 0 [0; 0; 0] /\ is_level u 2 /\ in_bounds (map nsh (lv_inner u 2)) [0; 0; 0] /\ 0 < 19 / 2 ^ 2.
Proof.
  intros groups u. split; [apply ex_comp_fair; auto|]. split; [apply ex_frames_whole; lia|]. split; [reflexivity|]. split; [reflexivity|]. split; [vm_compute; reflexivity|]. split; [vm_compute; reflexivity|].
  split; [split; [left; reflexivity|]; split; [vm_compute; repeat split; auto; discriminate|vm_compute; discriminate]|].
  split; [intros (_ & _ & H); vm_compute in H; apply H; reflexivity|]. split; [right; split; [reflexivity|]; exists 2%nat; split; [exact ex_last_level|lia]|].
  split; [vm_compute; repeat split; auto; discriminate|vm_compute; reflexivity].
Qed.

Print Assumptions C14_v3_unfinished_shards_lost.
Print Assumptions C14_v3_s3_shards.
