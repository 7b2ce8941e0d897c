(** C57: what a Python program appended is what is in the store. C47 for the repr of all settings. *)
Require Import ZArith List Bool String Lia.
Require Import Verif.Base Verif.Spec Verif.Dim Verif.Limits Verif.Radix Verif.World Verif.Writer Verif.Stream Verif.Api Verif.Py Verif.SessionSpec Verif.SinkProofs Verif.PropsStore Verif.PropsPy Verif.ExamplesUse Verif.Examples.
Import ListNotations.
Open Scope string_scope. Open Scope list_scope. Open Scope Z_scope.

(** byte [b] of element [idx] of the array, as Python shows it *)
Definition shows (m : mem) (a : ndarray) (idx : list Z) (b : Z) : option Z := m (a_ptr a + dot idx (a_strides a) + b).
(** an array of shape (H, W) is one image, an array of shape (k, H, W) is k of them *)
Definition images (ma : mem * ndarray) : list (Z -> Z -> Z -> option Z) :=
  let '(m, a) := ma in
  match a_shape a with
  | [_; _] => [fun y x b => shows m a [y; x] b]
  | [k; _; _] => map (fun i y x b => shows m a [i; y; x] b) (zseq k)
  | _ => []
  end.
(** C-contiguous arrays of such shapes, with elements of the size of the data type, whose memory can be read *)
Definition image_array (item H W : Z) (ma : mem * ndarray) : Prop :=
  let '(m, a) := ma in
  a_item a = item /\ (a_shape a = [H; W] \/ exists k, 0 <= k /\ a_shape a = [k; H; W]) /\ c_contiguous (a_item a) (a_shape a) (a_strides a) /\
  forall idx b, in_bounds (a_shape a) idx -> 0 <= b < a_item a -> shows m a idx b <> None.

Section Bytes.
Variables (item H W : Z).
Hypotheses (Hi : 0 < item) (HH : 0 < H) (HW : 0 < W).
(** the bytes of one image *)
Definition image_at (g : Z -> Z -> Z -> option Z) (q : Z) : Z := match g (q / item / W) (q / item mod W) (q mod item) with Some v => v | None => 0 end.
Definition image_bytes (g : Z -> Z -> Z -> option Z) : list Z := map (image_at g) (zseq (H * W * item)).
Lemma image_len g : zlen (image_bytes g) = H * W * item.
Proof. unfold image_bytes, zlen. rewrite map_length, zseq_length. rewrite Z2Nat.id; [reflexivity|]. apply Z.mul_nonneg_nonneg; [apply Z.mul_nonneg_nonneg|]; lia. Qed.
Lemma image_byte g y x b v : 0 <= y < H -> 0 <= x < W -> 0 <= b < item -> g y x b = Some v -> getb (image_bytes g) ((y * W + x) * item + b) = v.
Proof.
  intros Hy Hx Hb HG. assert (Y : 0 <= y * W + x < H * W) by nia. assert (R : 0 <= (y * W + x) * item + b < H * W * item) by nia.
  assert (Q1 : ((y * W + x) * item + b) / item = y * W + x) by (symmetry; apply Z.div_unique with b; lia).
  assert (Q2 : ((y * W + x) * item + b) mod item = b) by (symmetry; apply Z.mod_unique with (y * W + x); lia).
  assert (Q3 : (y * W + x) / W = y) by (symmetry; apply Z.div_unique with x; lia).
  assert (Q4 : (y * W + x) mod W = x) by (symmetry; apply Z.mod_unique with y; lia).
  unfold getb, image_bytes. rewrite nth_indep with (d' := image_at g 0) by (rewrite map_length, zseq_length; apply Z2Nat.inj_lt; lia).
  rewrite map_nth, nth_zseq by lia. unfold image_at. rewrite Q1, Q2, Q3, Q4, HG. reflexivity.
Qed.
(** the frames in an array, one after the other *)
Definition group (ma : mem * ndarray) : list (list Z) := map image_bytes (images ma).
Lemma concat_same (l : list (list Z)) L i r : 0 < L -> Forall (fun f => zlen f = L) l -> 0 <= i < zlen l -> 0 <= r < L -> getb (List.concat l) (i * L + r) = getb (nth (Z.to_nat i) l []) r.
Proof.
  intros HL F. revert i. induction F as [|f l Hf F IH]; intros i Hi' Hr; [unfold zlen in Hi'; cbn in Hi'; lia|]. cbn [List.concat].
  destruct (Z.eq_dec i 0) as [->|NE].
  - replace (0 * L + r) with r by lia. rewrite getb_app1 by lia. reflexivity.
  - assert (1 <= i) by lia. rewrite getb_app2 by nia. rewrite Hf. replace (i * L + r - L) with ((i - 1) * L + r) by lia. rewrite IH; [|unfold zlen in *; cbn [List.length] in *; lia|lia].
    replace (Z.to_nat i) with (S (Z.to_nat (i - 1))) by lia. reflexivity.
Qed.
Lemma concat_zlen (l : list (list Z)) L : Forall (fun f => zlen f = L) l -> zlen (List.concat l) = zlen l * L.
Proof. induction 1 as [|f l Hf F IH]; [reflexivity|]. cbn [List.concat]. rewrite zlen_app, IH, Hf. unfold zlen. cbn [List.length]. lia. Qed.
Lemma group_whole ma : Forall (fun f => zlen f = H * W * item) (group ma).
Proof. apply Forall_forall. intros f Hf. apply in_map_iff in Hf as (g & <- & _). apply image_len. Qed.
(** the array in C order is these frames *)
Lemma group_c_order m a : image_array item H W (m, a) -> c_order m a (List.concat (group (m, a))).
Proof.
  intros (I & S & C & R). assert (HL : 0 < H * W * item) by (apply Z.mul_pos_pos; [apply Z.mul_pos_pos|]; lia). split.
  - rewrite (concat_zlen _ _ (group_whole (m, a))). unfold group, images. destruct S as [->|(k & Hk & ->)]; rewrite I; unfold zlen; cbn [map List.length prodZ fold_right]; [lia|]. rewrite !map_length, zseq_length. rewrite Z2Nat.id by lia. lia.
  - intros idx j Hb Hj. rewrite I in *. pose proof (R idx j Hb Hj) as RR. unfold shows in RR. destruct (m (a_ptr a + dot idx (a_strides a) + j)) as [v|] eqn:MV; [|contradiction]. f_equal.
    assert (GW := group_whole (m, a)). destruct S as [S|(k & Hk & S)]; rewrite S in *.
    + assert (G : group (m, a) = [image_bytes (fun y x b => shows m a [y; x] b)]) by (unfold group, images; rewrite S; reflexivity). rewrite G. cbn [List.concat]. rewrite app_nil_r.
      destruct idx as [|y [|x [|]]]; cbn [in_bounds] in Hb; try tauto. destruct Hb as (By & Bx & _).
      replace (ravel [H; W] [y; x] * item + j) with ((y * W + x) * item + j) by (cbn; ring). symmetry. apply image_byte; auto.
    + assert (G : group (m, a) = map image_bytes (map (fun i y x b => shows m a [i; y; x] b) (zseq k))) by (unfold group, images; rewrite S; reflexivity). rewrite G in *.
      destruct idx as [|i [|y [|x [|]]]]; cbn [in_bounds] in Hb; try tauto. destruct Hb as (Bi & By & Bx & _).
      assert (YX : 0 <= y * W + x < H * W) by nia.
      replace (ravel [k; H; W] [i; y; x] * item + j) with (i * (H * W * item) + ((y * W + x) * item + j)) by (cbn; ring).
      rewrite concat_same; auto; [|unfold zlen; rewrite !map_length, zseq_length, Z2Nat.id by lia; exact Bi|nia].
      rewrite map_map. rewrite nth_indep with (d' := (fun i => image_bytes (fun y x b => shows m a [i; y; x] b)) 0) by (rewrite map_length, zseq_length; apply Z2Nat.inj_lt; lia).
      rewrite (map_nth (fun i => image_bytes (fun y x b => shows m a [i; y; x] b))), nth_zseq by lia. symmetry. apply image_byte; auto.
Qed.
End Bytes.

Section Session.
Variables (item H W : Z).
Hypotheses (Hi : 0 < item) (HH : 0 < H) (HW : 0 < W).
Lemma py_appends_ok E : forall arrays sw sw' rs, Forall (image_array item H W) arrays ->
  api_appends E (calls (map (group item H W) arrays)) sw = (sw', Ok rs) -> Forall (fun r => fst r = st_success) rs -> py_appends E arrays sw = (sw', Ok tt).
Proof.
  induction arrays as [|[m a] arrays IH]; intros sw sw' rs F R S.
  - cbn in R. injection R as -> <-. reflexivity.
  - apply Forall_cons_iff in F as [Fa F]. cbn [map calls api_appends] in R. cbn [py_appends].
    pose proof (group_c_order item H W Hi HH HW m a Fa) as CO. destruct Fa as (I & SH & C & _).
    assert (P : Forall (fun n => 0 <= n) (a_shape a)) by (destruct SH as [->|(k & Hk & ->)]; repeat constructor; lia).
    pose proof (C42_contiguous_partial E m a _ sw ltac:(rewrite I; exact Hi) P C CO) as Q.
    unfold bind in R at 1. destruct (api_append E (Some (List.concat (group item H W (m, a)))) true sw) as [sw1 [[st o]|e| |]] eqn:A; cbn [fst] in R; try discriminate.
    unfold bind in R at 1. fold (calls (map (group item H W) arrays)) in R. destruct (api_appends E (calls (map (group item H W) arrays)) sw1) as [sw2 [rs'|e| |]] eqn:B; try discriminate.
    injection R as <- <-. apply Forall_cons_iff in S as [S1 S2]. cbn [fst] in S1. subst st. cbn in Q.
    unfold bind. rewrite Q. exact (IH _ _ _ F B S2).
Qed.
Lemma py_session_ok E p arrays w w' rs : Forall (image_array item H W) arrays ->
  session E (py_create_settings p) (calls (map (group item H W) arrays)) w = (w', Ok (Some (rs, true))) -> Forall (fun r => fst r = st_success) rs ->
  py_session E p arrays w = (w', Ok tt).
Proof.
  intros F R S. unfold session in R. unfold py_session, py_create. unfold bind in R at 1. unfold bind.
  destruct (api_create E (Some (py_create_settings p)) w) as [w1 [[s|]|e| |]]; try discriminate. cbn [ret].
  unfold bind in R. destruct (api_appends E (calls (map (group item H W) arrays)) (s, w1)) as [sw [rs'|e| |]] eqn:A; try (destruct sw; discriminate).
  destruct (api_destroy E sw) as [sw' [d|e| |]] eqn:D; try (destruct sw'; discriminate). destruct sw' as [s2 w2]. cbn in R. injection R as <- <- ->.
  rewrite (py_appends_ok E arrays (s, w1) sw rs' F A S). rewrite D. reflexivity.
Qed.
End Session.
Lemma concat_groups item H W arrays : List.concat (map (group item H W) arrays) = map (image_bytes item H W) (List.concat (map images arrays)).
Proof. induction arrays as [|a r IH]; [reflexivity|]. cbn [map List.concat]. rewrite IH, map_app. reflexivity. Qed.

Definition u_height (u : use) : Z := d_array (u_dy u).
Definition u_width (u : use) : Z := d_array (u_dx u).
(** The setting: Python settings whose translation is a fair use, arrays of images of the right size, fewer than 2^32 images *)
Definition py_fair (u : use) (p : py_settings) (arrays : list (mem * ndarray)) : Prop :=
  fair_use u /\ u_set u = py_create_settings p /\ Forall (image_array (u_bpp u) (u_height u) (u_width u)) arrays /\ zlen (List.concat (map images arrays)) < 2 ^ 32.

Lemma py_positive u : fair_use u -> 0 < u_bpp u /\ 0 < u_height u /\ 0 < u_width u.
Proof.
  intros HU. pose proof (fu_fits _ HU) as F. pose proof (fit_inner _ _ _ _ _ F) as I. apply Forall_app in I as [_ I].
  apply Forall_cons_iff in I as [Y I]. apply Forall_cons_iff in I as [X _]. split; [exact (proj1 (fit_bpp _ _ _ _ _ F))|]. split; [exact (proj1 Y)|exact (proj1 X)].
Qed.
Lemma py_whole u p arrays : py_fair u p arrays -> whole_frames u (map (group (u_bpp u) (u_height u) (u_width u)) arrays).
Proof.
  intros (HU & _ & _ & N). destruct (py_positive u HU) as (PB & PH & PW). split.
  - apply Forall_forall. intros gr IN. apply in_map_iff in IN as (ma & <- & _). pose proof (group_whole (u_bpp u) (u_height u) (u_width u) PB PH PW ma) as G.
    eapply Forall_impl; [|exact G]. intros f E. rewrite E. reflexivity.
  - rewrite concat_groups. unfold zlen. rewrite map_length. exact N.
Qed.
Lemma py_ran u p arrays : py_fair u p arrays ->
  let groups := map (group (u_bpp u) (u_height u) (u_width u)) arrays in
  succeeds u groups -> py_session (u_env u) p arrays (u_world u) = (after u groups, Ok tt).
Proof.
  cbv zeta. intros (HU & SET & FA & _) SU. destruct (py_positive u HU) as (PB & PH & PW). unfold succeeds in SU. rewrite SET in SU. unfold after. rewrite SET.
  destruct (session (u_env u) (py_create_settings p) (calls (map (group (u_bpp u) (u_height u) (u_width u)) arrays)) (u_world u)) as [w' r] eqn:R. cbn [fst snd] in *. subst r.
  apply (py_session_ok _ _ _ PB PH PW _ _ _ _ _ _ FA R). apply Forall_forall. intros r0 IN. apply in_map_iff in IN as (c & <- & _). reflexivity.
Qed.
(** the byte of the image that lies at index t :: mm *)
Lemma py_byte u p arrays t mm y x b g v : py_fair u p arrays ->
  let A := map d_array (u_mids u) in
  0 <= t -> in_bounds A mm -> 0 <= y < u_height u -> 0 <= x < u_width u -> 0 <= b < u_bpp u ->
  nth_error (List.concat (map images arrays)) (Z.to_nat (t * prodZ A + ravel A mm)) = Some g -> g y x b = Some v ->
  0 <= t < ceil_div (zlen (List.concat (map (group (u_bpp u) (u_height u) (u_width u)) arrays))) (prodZ A) /\
  appended_byte (u_bpp u) A (d_array (u_dx u)) (List.concat (map (group (u_bpp u) (u_height u) (u_width u)) arrays)) t mm y x b = v.
Proof.
  cbv zeta. intros (HU & SET & FA & N) Ht Hm Hy Hx Hb NG GV. destruct (py_positive u HU) as (PB & PH & PW). rewrite concat_groups. split.
  - split; [exact Ht|]. pose proof (ravel_bound _ _ Hm) as RB. assert (LT : (Z.to_nat (t * prodZ (map d_array (u_mids u)) + ravel (map d_array (u_mids u)) mm) < List.length (List.concat (map images arrays)))%nat) by (apply nth_error_Some; rewrite NG; discriminate).
    unfold zlen. rewrite map_length. set (P := prodZ _) in *. set (r := ravel _ _) in *. clearbody P r. unfold ceil_div.
    assert (LT' : t * P + r < Z.of_nat (List.length (List.concat (map images arrays)))) by (clear -LT RB Ht; nia).
    clear -LT' RB Ht. set (L := Z.of_nat _) in *. clearbody L. apply Z.le_succ_l. apply Z.div_le_lower_bound; lia.
  - unfold appended_byte. cbv zeta. fold (u_width u). erewrite nth_error_nth; [|apply map_nth_error; exact NG]. apply image_byte; auto.
Qed.
Lemma images_readable item H W ma g y x b : image_array item H W ma -> In g (images ma) -> 0 <= y < H -> 0 <= x < W -> 0 <= b < item -> exists v, g y x b = Some v.
Proof.
  destruct ma as [m a]. intros (I & SH & _ & R) IN Hy Hx Hb. unfold images in IN.
  enough (NN : g y x b <> None) by (destruct (g y x b) as [v|]; [eauto|contradiction]).
  rewrite <- I in Hb. destruct SH as [E|(k & Hk & E)]; rewrite E in *.
  - destruct IN as [<-|[]]. apply R; [cbn; auto|exact Hb].
  - apply in_map_iff in IN as (i & <- & Hi). apply in_zseq in Hi. apply R; [cbn; auto|exact Hb].
Qed.
Lemma py_reads u p arrays t mm y x b g : py_fair u p arrays ->
  nth_error (List.concat (map images arrays)) (Z.to_nat (t * prodZ (map d_array (u_mids u)) + ravel (map d_array (u_mids u)) mm)) = Some g ->
  0 <= y < u_height u -> 0 <= x < u_width u -> 0 <= b < u_bpp u -> exists v, g y x b = Some v.
Proof.
  intros (_ & _ & FA & _) NG Hy Hx Hb. apply nth_error_In in NG. apply in_concat in NG as (l & IN & INg). apply in_map_iff in IN as (ma & <- & IN).
  rewrite Forall_forall in FA. exact (images_readable _ _ _ _ _ _ _ _ (FA _ IN) INg Hy Hx Hb).
Qed.

(** *** C57 *)
(** Image number t * prod A + ravel A mm lies at t :: mm: every byte a reader finds at t :: mm ++ [y; x] is what Python showed at [y, x] of that image. *)
Definition python_reads (u : use) (arrays : list (mem * ndarray)) (read : list Z -> Z -> Z) : Prop :=
  let A := map d_array (u_mids u) in
  forall t mm y x b g, 0 <= t -> in_bounds A mm -> 0 <= y < u_height u -> 0 <= x < u_width u -> 0 <= b < u_bpp u ->
    nth_error (List.concat (map images arrays)) (Z.to_nat (t * prodZ A + ravel A mm)) = Some g ->
    Some (read (t :: mm ++ [y; x]) b) = g y x b.

(** Full statement: also for arrays that are not C-contiguous, which is false (C42_refuted). Version 2, both kinds of store. *)
Theorem C57_python_v2_partial : forall u p arrays,
  py_fair u p arrays -> st_version (u_set u) = 2 ->
  exists w', py_session (u_env u) p arrays (u_world u) = (w', Ok tt) /\
    python_reads u arrays (read_v2 (stored (u_env u) (w_trace w') (u_bk u)) (u_dec u) (u_root u ++ "/0") (map d_chunk (u_dims u)) (u_bpp u)).
Proof.
  intros u p arrays PF V. pose proof (py_whole u p arrays PF) as WF. destruct PF as (HU & PF'). pose proof (conj HU PF') as PF. set (groups := map (group (u_bpp u) (u_height u) (u_width u)) arrays) in *.
  assert (B : succeeds u groups /\ reads_back_v2 u groups).
  { destruct (st_s3 (u_set u)) eqn:S3.
    - destruct (C14_v2_s3_round_trip u groups HU WF V ltac:(congruence)) as (X & _ & Y). auto.
    - destruct (C01_v2_filesystem_round_trip u groups HU WF V S3) as (X & _ & Y). auto. }
  destruct B as [SU RB]. exists (after u groups). split; [exact (py_ran u p arrays PF SU)|].
  unfold python_reads. cbv zeta. intros t mm y x b g Ht Hm Hy Hx Hb NG. destruct (py_reads u p arrays t mm y x b g PF NG Hy Hx Hb) as [v GV].
  destruct (py_byte u p arrays t mm y x b g v PF Ht Hm Hy Hx Hb NG GV) as [TR AB]. rewrite GV. f_equal. rewrite <- AB. exact (RB t mm y x b TR Hm Hy Hx Hb).
Qed.
(** Version 3: files, append shard of one chunk (the rest is refuted for any client: C02, C14) *)
Theorem C57_python_v3_partial : forall u p arrays,
  py_fair u p arrays -> st_version (u_set u) = 3 -> st_s3 (u_set u) = None -> d_shard (u_d0 u) = 1 ->
  exists w', py_session (u_env u) p arrays (u_world u) = (w', Ok tt) /\
    python_reads u arrays (read_v3 (stored (u_env u) (w_trace w') (u_bk u)) (u_dec u) (u_root u ++ "/data/root/0") (map d_chunk (u_dims u)) (map d_shard (u_dims u)) (u_bpp u)).
Proof.
  intros u p arrays PF V S3 H1. pose proof (py_whole u p arrays PF) as WF. destruct PF as (HU & PF'). pose proof (conj HU PF') as PF. set (groups := map (group (u_bpp u) (u_height u) (u_width u)) arrays) in *.
  destruct (C02_v3_filesystem_round_trip_partial u groups HU WF V S3 H1) as [SU RB]. exists (after u groups). split; [exact (py_ran u p arrays PF SU)|].
  unfold python_reads. cbv zeta. intros t mm y x b g Ht Hm Hy Hx Hb NG. destruct (py_reads u p arrays t mm y x b g PF NG Hy Hx Hb) as [v GV].
  destruct (py_byte u p arrays t mm y x b g v PF Ht Hm Hy Hx Hb NG GV) as [TR AB]. rewrite GV. f_equal. rewrite <- AB. exact (RB t mm y x b TR Hm Hy Hx Hb).
Qed.

(** A case that meets the hypotheses: uint16 images of 5 x 7 pixels, one array of shape (5, 7), then one of shape (12, 5, 7); file and S3 stores, versions 2 and 3. *)
Definition px_set (version : Z) (s3 : bool) : py_settings :=
  mkpyset " out " (Some "{}") (if s3 then Some (mkpys3 "http://host" " bucket " "key" "secret") else None) None
    [mkpydim "t" ty_time 0 2 1; mkpydim "c" 1 3 2 1; mkpydim "y" ty_space 5 2 2; mkpydim "x" ty_space 7 3 2] false dt_uint16 version.
Definition px_mem : mem := fun p => if p <? 0 then None else Some (p mod 251).
Definition px_arrays : list (mem * ndarray) := [(px_mem, mknd 1000 2 [5; 7] [14; 2]); (px_mem, mknd 5000 2 [12; 5; 7] [70; 14; 2])].
Example C57_hypotheses : forall version s3, version = 2 \/ version = 3 -> exists u,
  py_fair u (px_set version s3) px_arrays /\ st_version (u_set u) = version /\ (st_s3 (u_set u) = None <-> s3 = false) /\ d_shard (u_d0 u) = 1.
Proof.
  intros version s3 V. exists (ex_gen 1 false version s3 None false dt_uint16 2 ex_d0). split.
  - split; [apply ex_gen_fair; auto; try lia; cbn; auto|]. split; [destruct s3; reflexivity|]. split; [|vm_compute; reflexivity].
    assert (RD : forall shape strides k, Forall (fun z => 0 <= z) strides -> in_bounds shape k -> 0 <= dot k strides).
    { intros shape strides k. revert shape k. induction strides as [|z strides IH]; intros [|n shape] [|j k] F B; cbn in *; try tauto; try lia. apply Forall_cons_iff in F as [F1 F2]. specialize (IH shape k F2 (proj2 B)). nia. }
    assert (PM : forall q, 0 <= q -> px_mem q <> None) by (intros q Q; unfold px_mem; destruct (Z.ltb_spec q 0); [lia|discriminate]).
    repeat (apply Forall_cons || apply Forall_nil); (split; [reflexivity|]); cbn [a_shape a_item a_strides].
    + split; [left; reflexivity|]. split; [cbn; repeat split; right; reflexivity|]. intros k j B J. unfold shows. cbn [a_ptr a_strides a_item] in *. apply PM. pose proof (RD [5; 7] [14; 2] k ltac:(repeat constructor; lia) B). lia.
    + split; [right; exists 12; split; [lia|reflexivity]|]. split; [cbn; repeat split; right; reflexivity|]. intros k j B J. unfold shows. cbn [a_ptr a_strides a_item] in *. apply PM. pose proof (RD [12; 5; 7] [70; 14; 2] k ltac:(repeat constructor; lia) B). lia.
  - split; [reflexivity|]. split; [destruct s3; cbn; split; intros; congruence|reflexivity].
Qed.

(** *** C47 for the repr of all the settings *)
Definition with_s3 (p : py_settings) (s : py_s3) : py_settings := mkpyset (q_path p) (q_meta p) (Some s) (q_comp p) (q_dims p) (q_multi p) (q_dtype p) (q_version p).
Theorem C47_settings_repr : forall p e b k five rest rest', String.length five = 5%nat -> rest <> "" -> rest' <> "" ->
  settings_repr (with_s3 p (mkpys3 e b k (five ++ rest)%string)) = settings_repr (with_s3 p (mkpys3 e b k (five ++ rest')%string)).
Proof.
  intros p e b k five rest rest' L R R'. unfold settings_repr, with_s3. cbn [q_path q_meta q_s3 q_comp q_dims q_multi q_dtype q_version].
  rewrite (proj1 (C47_repr_shows_at_most_five e b k five rest rest' L R R')). reflexivity.
Qed.
Example C47_settings_hypotheses : settings_repr (mkpyset "a.zarr" None (Some (mkpys3 "e" "b" "k" "secret-key")) None [mkpydim "x" 0 64 16 2] true 1 3)
  = "StreamSettings(store_path='a.zarr', s3=S3Settings(endpoint='e', bucket_name='b', access_key_id='k', secret_access_key='secre...'), dimensions=[Dimension(name='x', kind=DimensionType.SPACE, array_size_px=64, chunk_size_px=16, shard_size_chunks=2), ], multiscale=True, data_type=DataType.UINT16, version=ZarrVersion.V3)".
Proof. vm_compute. reflexivity. Qed.

Print Assumptions C57_python_v2_partial.
Print Assumptions C57_python_v3_partial.
Print Assumptions C47_settings_repr.
