(** Concrete uses of the library that meet the hypotheses of the session theorems. *)
Require Import ZArith List Bool String Ascii Lia Zify.
Require Import Verif.Base Verif.Spec Verif.Dim Verif.Limits Verif.World Verif.Writer Verif.Stream Verif.Api Verif.SettingsSpec Verif.SessionSpec Verif.PyramidSpec Verif.Examples Verif.ValidProofs.
Import ListNotations.
Open Scope string_scope.
Open Scope list_scope.
Open Scope Z_scope.

(** t (chunks of 2), 3 channels in chunks of 2, 5 x 7 pixels in tiles of 2 x 3; shards of 1 x 1 x 2 x 2 chunks *)
(** the middle dimension has type [mt] *)
Definition gen_mids (mt : Z) (flat : bool) : list dim := [mkdim "c" mt 3 (if flat then 1 else 2) 1].
(** [flat]: chunks of one pixel *)
Definition gen_dy (flat : bool) : dim := mkdim "y" ty_space 5 (if flat then 1 else 2) 2.
Definition gen_dx (flat : bool) : dim := mkdim "x" ty_space 7 (if flat then 1 else 3) 2.
Definition ex_gen (mt : Z) (flat : bool) (version : Z) (s3 : bool) (comp : option compset) (multi : bool) (dt bpp : Z) (d0 : dim) : use :=
  mkuse ex_env ex_world
    (mksettings (Some " out ") (Some "{}")
       (if s3 then Some (mks3set (Some "http://host") (Some " bucket ") (Some "key") (Some "secret")) else None)
       comp (Some (map ex_udim (d0 :: (gen_mids mt flat) ++ [(gen_dy flat); (gen_dx flat)]))) multi dt version)
    d0 (gen_mids mt flat) (gen_dy flat) (gen_dx flat) bpp "out" (if s3 then Some "bucket" else None)
    (match comp with None => fun d => d | Some _ => fun d => 7 :: d end)
    (match comp with None => fun d => d | Some _ => fun d => tl d end).

Lemma trim_at s : trimmed_to s (trim s). Proof. apply trim_spec. Qed.

Lemma ex_gen_fair mt flat version s3 comp multi dt bpp d0 :
  0 <= mt <= 3 -> (flat = true -> multi = false) -> version = 2 \/ version = 3 ->
  (comp = None \/ comp = Some (mkcompset 1 1 5 1)) ->
  In (dt, bpp) [(dt_uint8, 1); (dt_uint16, 2); (dt_int32, 4); (dt_float64, 8)] ->
  In d0 [ex_d0; mkdim "t" ty_time 0 2 2; mkdim "t" ty_time 10 5 1; mkdim "t" ty_time 6 5 1; mkdim "t" ty_time 0 19 1] ->
  fair_use (ex_gen mt flat version s3 comp multi dt bpp d0).
Proof.
  intros HM HF HV HC HT HD.
  assert (DT : 0 <= dt <= 9 /\ dt <> dt_int8 /\ bytes_of_type dt = Ok bpp /\ (bpp = 1 \/ bpp = 2 \/ bpp = 4 \/ bpp = 8)).
  { cbn in HT. decompose [or] HT; try contradiction; match goal with H : _ = _ |- _ => injection H as <- <- end; repeat split; auto; try (vm_compute; congruence); lia. }
  destruct DT as (D1 & D2 & D3 & D4). clear HT.
  assert (Z0 : forall p, file_of (u_env (ex_gen mt flat version s3 comp multi dt bpp d0)) (w_trace (u_world (ex_gen mt flat version s3 comp multi dt bpp d0))) p = None) by reflexivity.
  assert (FT : fits bpp d0 (gen_mids mt flat) (gen_dy flat) (gen_dx flat)).
  { cbn in HD. decompose [or] HD; try contradiction; subst d0; destruct flat; decompose [or] D4; subst bpp; constructor; cbn; unfold inner_ok; repeat constructor; cbn; intros; try lia; vm_compute; try reflexivity; intros; discriminate. }
  constructor; cbn [ex_gen u_env u_world u_set u_d0 u_mids u_dy u_dx u_bpp u_root u_bk u_enc u_dec st_path st_meta st_s3 st_comp st_dims st_multi st_dtype st_version].
  - reflexivity.
  - reflexivity.
  - reflexivity.
  - intros _; discriminate.
  - intros d p _ _ _ H. exfalso. apply H. reflexivity.
  - reflexivity.
  - split; [cbn; lia|]. split; [cbn; lia|]. split.
    + cbn. intros c Hc. destruct HC as [->| ->]; [discriminate|]. injection Hc as <-. cbn. lia.
    + cbn. intros l d Hl Hin. injection Hl as <-. cbn in HD. cbn in Hin. decompose [or] HD; try contradiction; subst d0; decompose [or] Hin; try contradiction; subst d; cbn; try lia; vm_compute; discriminate.
  - split.
    + cbn. intros x Hx. destruct s3; [|discriminate]. injection Hx as <-. cbn. repeat split; discriminate.
    + cbn. intros l d Hl Hin. injection Hl as <-. cbn in Hin. decompose [or] Hin; try contradiction; subst d; discriminate.
  - assert (VS : forall s, s <> "" -> (forall c t, s = String c t -> ~ white c) -> visible (Some s)).
    { intros s N H. exists s. split; auto. intros W. unfold all_white in W. destruct s as [|c t]; [congruence|]. cbn in W. inversion W; subst. eapply H; eauto. }
    assert (VW : forall c, white c <-> In (nat_of_ascii c) [32; 9; 10; 11; 12; 13]%nat) by reflexivity.
    split; [cbn; exact HV|]. split.
    { exists " out ". split; [reflexivity|]. split; [discriminate|]. cbn. destruct s3.
      - split; [apply VS; [discriminate|intros c t H; injection H as <- _; rewrite VW; cbn; intuition discriminate]|].
        split; [apply VS; [discriminate|intros c t H; injection H as <- _; rewrite VW; cbn; intuition discriminate]|].
        split; [apply VS; [discriminate|intros c t H; injection H as <- _; rewrite VW; cbn; intuition discriminate]|].
        exists " bucket ", "bucket". split; [reflexivity|]. split; [exact (trim_at " bucket ")|]. cbn. lia.
      - split; [left; reflexivity|reflexivity]. }
    split; [cbn; lia|]. split.
    { intros c Hc. cbn in Hc. destruct HC as [->| ->]; [discriminate|]. injection Hc as <-. unfold compression_documented. cbn. lia. }
    split. { intros m Hm. injection Hm as <-. right. exists "{}". reflexivity. }
    exists (map ex_udim (d0 :: (gen_mids mt flat) ++ [(gen_dy flat); (gen_dx flat)])), [ex_udim d0; ex_udim (mkdim "c" mt 3 (if flat then 1 else 2) 1)], (ex_udim (gen_dy flat)), (ex_udim (gen_dx flat)).
    split; [reflexivity|]. split; [reflexivity|]. split; [discriminate|]. split; [reflexivity|]. split; [reflexivity|].
    intros i d Hi. cbn [st_version]. 
    assert (DOK : forall e, In e [ex_d0; mkdim "t" ty_time 0 2 2; mkdim "t" ty_time 10 5 1; mkdim "t" ty_time 6 5 1; mkdim "t" ty_time 0 19 1] -> dimension_documented version (0%nat = O) (ex_udim e)).
    { intros e He. cbn in He. decompose [or] He; try contradiction; subst e; (split; [apply VS; [discriminate|intros c t H; injection H as <- _; rewrite VW; cbn; intuition discriminate]|]); cbn; repeat split; try discriminate; auto; try lia. }
    destruct i as [|[|[|[|i]]]]; cbn in Hi; try (injection Hi as <-); [apply DOK; exact HD| | | |destruct i; discriminate];
      (split; [apply VS; [discriminate|intros c t H; injection H as <- _; rewrite VW; cbn; intuition discriminate]|]); cbn; destruct flat; repeat split; try discriminate; auto; try lia; right; discriminate.
  - exists " out ". split; [reflexivity|exact (trim_at " out ")].
  - destruct s3; [|reflexivity]. exists " bucket ", "bucket". split; [reflexivity|]. split; [exact (trim_at " bucket ")|reflexivity].
  - eexists. split; [reflexivity|]. cbn in HD. decompose [or] HD; try contradiction; subst d0; reflexivity.
  - exact D3.
  - split; [discriminate|reflexivity].
  - destruct HC as [->| ->]; [split; reflexivity|]. cbn. intros raw Hr. split; [reflexivity|]. split; [|reflexivity]. unfold zlen in *. cbn [List.length]. lia.
  - exact FT.
  - unfold fits_epoch. cbn in HD. decompose [or] HD; try contradiction; subst d0; destruct flat; decompose [or] D4; subst bpp; vm_compute; reflexivity.
  - unfold u_most, u_chunkb, u_dims. cbn [u_set u_bpp u_d0 u_mids u_dy u_dx st_comp]. cbn in HD. destruct HC as [->| ->]; decompose [or] HD; try contradiction; subst d0; destruct flat; decompose [or] D4; subst bpp; vm_compute; reflexivity.
  - intros _. split.
    + cbn in HD. decompose [or] HD; try contradiction; subst d0; destruct flat; constructor; cbn; unfold inner_ok; repeat constructor; cbn; intros; try lia; vm_compute; try reflexivity; intros; discriminate.
    + unfold u_most, u_chunkb, u_dims. cbn [u_set u_bpp u_d0 u_mids u_dy u_dx st_comp]. cbn in HD. destruct HC as [->| ->]; decompose [or] HD; try contradiction; subst d0; destruct flat; decompose [or] D4; subst bpp; vm_compute; reflexivity.
  - apply Nat.leb_le. reflexivity.
  - cbn in HD. decompose [or] HD; try contradiction; subst d0; repeat constructor; cbn; lia.
  - cbn. intros m t H. destruct (String.eqb m "{}"); [|discriminate]. injection H as <-. vm_compute. reflexivity.
  - intros HMU. assert (flat = false) as -> by (destruct flat; auto; rewrite HF in HMU; auto; discriminate). split; [|split; [|split]].
    + cbn in HD. decompose [or] HD; try contradiction; subst d0; cbn; lia.
    + unfold image_fits. cbn [gen_dx gen_dy d_array]. split; [lia|]. split; [lia|]. decompose [or] D4; subst bpp; vm_compute; reflexivity.
    + exact D2.
    + exists (gen_dx false). split; [right; right; right; left; reflexivity|]. unfold can_shrink. cbn. repeat split; try lia. discriminate.
Qed.

Definition ex_use := ex_gen ty_channel false.
Lemma ex_use_fair version s3 comp multi dt bpp d0 :
  version = 2 \/ version = 3 ->
  (comp = None \/ comp = Some (mkcompset 1 1 5 1)) ->
  In (dt, bpp) [(dt_uint8, 1); (dt_uint16, 2); (dt_int32, 4); (dt_float64, 8)] ->
  In d0 [ex_d0; mkdim "t" ty_time 0 2 2; mkdim "t" ty_time 10 5 1; mkdim "t" ty_time 6 5 1; mkdim "t" ty_time 0 19 1] ->
  fair_use (ex_use version s3 comp multi dt bpp d0).
Proof. apply ex_gen_fair; [vm_compute; split; discriminate|discriminate]. Qed.

(** [n] frames of 35 pixels; byte k of frame i is (40 * i + k) mod 251 + 1 *)
Definition ex_frame (bpp : Z) (i : nat) : list Z := map (fun k => (40 * Z.of_nat i + k) mod 251 + 1) (zseq (35 * bpp)).
Definition ex_frames (bpp : Z) (n : nat) : list (list Z) := map (ex_frame bpp) (seq 0 n).
(** cut into calls of 2 frames, then an empty call *)
Definition ex_groups (bpp : Z) (n : nat) : list (list (list Z)) := [firstn 2 (ex_frames bpp n); skipn 2 (ex_frames bpp n); []].

Lemma gen_frames_whole mt flat version s3 comp multi dt bpp d0 n : 0 <= bpp -> (n < 1000)%nat ->
  whole_frames (ex_gen mt flat version s3 comp multi dt bpp d0) (ex_groups bpp n).
Proof.
  intros Hb Hn.
  assert (L : Forall (fun f => zlen f = 5 * 7 * bpp) (ex_frames bpp n)).
  { unfold ex_frames. apply Forall_map. apply Forall_forall. intros i _. unfold ex_frame, zlen. rewrite map_length. unfold zseq. rewrite map_length, seq_length. lia. }
  split.
  - unfold ex_groups. constructor; [|constructor; [|constructor; constructor]]; change (u_frame (ex_gen mt flat version s3 comp multi dt bpp d0)) with (5 * 7 * bpp).
    + rewrite <- (firstn_skipn 2 (ex_frames bpp n)) in L. apply Forall_app in L. apply L.
    + rewrite <- (firstn_skipn 2 (ex_frames bpp n)) in L. apply Forall_app in L. apply L.
  - unfold ex_groups. cbn [List.concat]. rewrite app_nil_r, firstn_skipn. unfold ex_frames, zlen. rewrite map_length, seq_length. lia.
Qed.
Lemma ex_frames_whole version s3 comp multi dt bpp d0 n : 0 <= bpp -> (n < 1000)%nat ->
  whole_frames (ex_use version s3 comp multi dt bpp d0) (ex_groups bpp n).
Proof. apply gen_frames_whole. Qed.
Lemma ex_groups_frames bpp n : List.concat (ex_groups bpp n) = ex_frames bpp n.
Proof. unfold ex_groups. cbn [List.concat]. rewrite app_nil_r, firstn_skipn. reflexivity. Qed.

(** the settings used below; [ex_d0] is an unlimited append dimension with chunks of 2 in shards of 1 *)
Definition ex_plain (version : Z) (s3 : bool) : use := ex_use version s3 None false dt_uint16 2 ex_d0.
Definition ex_comp (version : Z) (s3 multi : bool) : use := ex_use version s3 (Some (mkcompset 1 1 5 1)) multi dt_uint8 1 ex_d0.
(** two append chunks per shard *)
Definition ex_two (s3 : bool) : use := ex_use 3 s3 None false dt_uint8 1 (mkdim "t" ty_time 0 2 2).
Lemma ex_plain_fair version s3 : version = 2 \/ version = 3 -> fair_use (ex_plain version s3).
Proof. intros V. apply ex_use_fair; cbn; auto. Qed.
Lemma ex_comp_fair version s3 multi : version = 2 \/ version = 3 -> fair_use (ex_comp version s3 multi).
Proof. intros V. apply ex_use_fair; cbn; auto. Qed.
Lemma ex_two_fair s3 : fair_use (ex_two s3).
Proof. apply ex_use_fair; cbn; auto. Qed.

(** the pyramid of these dimensions has levels 0, 1, 2 *)
Lemma ex_last_level : last_level (ex_d0 :: ex_mids ++ [ex_dy; ex_dx]) 2.
Proof.
  split; [lia|]. split.
  - exists ex_dx. split; [cbn; auto|]. split; [discriminate|]. split; vm_compute; reflexivity.
  - intros k Hk (d & Hd & Ht & Ha & Hc). assert (k = 1%nat) by lia. subst k. cbn in Hd. decompose [or] Hd; try contradiction; subst d; revert Ha Hc; vm_compute; intros; congruence.
Qed.
