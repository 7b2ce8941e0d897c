(** C24 (settings validation), C41 (trimming), C44 (integer widths). *)
Require Import ZArith List Bool String Ascii Lia.
Require Import Verif.Base Verif.Spec Verif.Dim Verif.Limits Verif.World Verif.Writer Verif.Stream Verif.SettingsSpec.
Require Import Verif.DimProofs Verif.ShardProofs Verif.ValidProofs Verif.Examples.
Import ListNotations.
Open Scope string_scope.
Open Scope list_scope.
Open Scope Z_scope.

(** *** C24 *)

(** A stream is only ever created from settings that satisfy the documented constraints. *)
Theorem C24_created_only_if_documented : forall E w st s w',
  typed st -> strings_present st ->
  new_stream E (Some st) w = (w', Ok s) -> documented E w st.
Proof.
  intros E w st s w' Ht Hp H. destruct (new_stream_valid _ _ _ _ _ H) as (st' & _ & Hv).
  destruct (validate_settings_spec E w st Ht Hp) as (b & R & Hb). rewrite Hv in R. inversion R; subst. apply Hb; auto.
Qed.

(** Other settings are rejected by an exception, with no effect on the store. *)
Theorem C24_rejected_without_effect : forall E w st,
  typed st -> strings_present st -> ~ documented E w st ->
  new_stream E (Some st) w = (w, Throw "Invalid Zarr stream settings").
Proof.
  intros E w st Ht Hp H. destruct (validate_settings_spec E w st Ht Hp) as (b & R & Hb).
  apply new_stream_invalid. rewrite R. destruct b; auto. exfalso. apply H, Hb; auto.
Qed.

Theorem C24_null_settings_rejected : forall E w, new_stream E None w = (w, Throw "Invalid Zarr stream settings").
Proof. intros. apply new_stream_invalid. reflexivity. Qed.

(** Validation accepts everything documented. *)
Theorem C24_documented_accepted : forall E w st,
  typed st -> documented E w st -> strings_present st -> validate_settings E w (Some st) = Ok true.
Proof.
  intros E w st Ht H Hp. destruct (validate_settings_spec E w st Ht Hp) as (b & R & Hb). rewrite R. f_equal. apply Hb; auto.
Qed.

(** Null strings inside the settings are dereferenced instead of being rejected. *)
Theorem C24_null_strings_refuted :
  exists st, typed st /\ ~ documented ex_env ex_world st /\ new_stream ex_env (Some st) ex_world = (ex_world, UB).
Proof.
  exists (mksettings (Some "out") None None None
     (Some [mkudim None ty_time 0 2 1; ex_udim ex_dy; ex_udim ex_dx]) false dt_uint16 2).
  split; [|split].
  - unfold typed. cbn. repeat split; try lia; try (intros; discriminate).
    intros l d H. inversion H; subst. cbn. intuition (subst; vm_compute; discriminate).
  - intros (_ & _ & _ & _ & _ & (l & i & y & x & H & _ & _ & _ & _ & Hd)). inversion H; subst.
    destruct (Hd O _ eq_refl) as ((s & Hs & _) & _). discriminate.
  - reflexivity.
Qed.

Example C24_nonvacuous_v2 : typed (ex_settings 2) /\ strings_present (ex_settings 2) /\ documented ex_env ex_world (ex_settings 2).
Proof.
  assert (T : typed (ex_settings 2)).
  { unfold typed. cbn. repeat split; try lia; try (intros; discriminate).
    intros l d H. inversion H; subst. cbn. intuition (subst; vm_compute; discriminate). }
  assert (P : strings_present (ex_settings 2)).
  { split; [intros x H; discriminate|]. intros l d H. inversion H; subst. cbn. intuition (subst; discriminate). }
  split; auto. split; auto. destruct (validate_settings_spec ex_env ex_world _ T P) as (b & R & Hb). apply Hb.
  vm_compute in R. congruence.
Qed.
Example C24_nonvacuous_created : exists s w', new_stream ex_env (Some (ex_settings 3)) ex_world = (w', Ok s).
Proof. eexists _, _. vm_compute. reflexivity. Qed.
Example C24_nonvacuous_rejected : typed (ex_settings 4) /\ strings_present (ex_settings 4) /\ ~ documented ex_env ex_world (ex_settings 4).
Proof.
  split; [|split].
  - unfold typed. cbn. repeat split; try lia; try (intros; discriminate).
    intros l d H. inversion H; subst. cbn. intuition (subst; vm_compute; discriminate).
  - split; [intros x H; discriminate|]. intros l d H. inversion H; subst. cbn. intuition (subst; discriminate).
  - intros ([H|H] & _); discriminate H.
Qed.

(** *** C41 *)

(** Trimming removes exactly the leading and trailing white space. *)
Theorem C41_trim : forall s t, trim s = t <-> trimmed_to s t.
Proof. intros s t. split; [intros <-; apply trim_spec|intros H; exact (trimmed_unique s _ _ (trim_spec s) H)]. Qed.
Theorem C41_trim_idempotent : forall s, trim (trim s) = trim s.
Proof. exact trim_idempotent. Qed.
(** A string counts as empty iff all of its characters are white space. *)
Theorem C41_empty : forall s, is_empty_string (Some s) = Ok true <-> all_white s.
Proof.
  intros s. unfold is_empty_string. rewrite <- trim_blank. split.
  - intros H. inversion H. apply String.eqb_eq; auto.
  - intros ->. reflexivity.
Qed.
Example C41_nonvacuous : trimmed_to " a b  " "a b" /\ is_empty_string (Some "  ") = Ok true /\ ~ all_white " a".
Proof.
  split; [apply C41_trim; reflexivity|]. split; [reflexivity|].
  intros H. unfold all_white in H. inversion H; subst. inversion H3; subst. vm_compute in H4. intuition discriminate.
Qed.

(** *** C44 *)

(** All size and index computations are exact while the sizes stay within the limits of Limits.v. *)
Theorem C44_widths_partial : forall bpp dt d0 mids dy dx,
  fits bpp d0 mids dy dx -> bytes_of_type dt = Ok bpp ->
  let inner := mids ++ [dy; dx] in
  let ds := d0 :: inner in
  let grid := map (fun d => ceil_div (d_array d) (d_chunk d)) inner in
  (forall d, In d inner -> chunks_along_dimension d = Ok (ceil_div (d_array d) (d_chunk d))) /\
  number_of_chunks_in_memory ds = Ok (prodZ grid) /\
  bytes_per_chunk ds dt = Ok (prodZ (map d_chunk ds) * bpp) /\
  bytes_of_frame ds dt = Ok (d_array dy * d_array dx * bpp) /\
  (fits_shards d0 mids dy dx ->
     number_of_shards ds = Ok (prodZ (map (fun d => ceil_div (ceil_div (d_array d) (d_chunk d)) (d_shard d)) inner)) /\
     chunks_per_shard ds = prodZ (map d_shard ds)).
Proof.
  intros bpp dt d0 mids dy dx Hf Hb inner ds grid.
  assert (Hin : Forall inner_ok inner) by exact (fit_inner _ _ _ _ _ Hf).
  split; [intros d Hd; apply chunks_along_ok; rewrite Forall_forall in Hin; auto|].
  split; [unfold ds, inner; rewrite (number_of_chunks_exact _ _ _ _ _ Hf); f_equal; unfold grid, inner; symmetry; apply nch_prod_split|].
  split; [exact (bytes_per_chunk_exact _ _ _ _ _ _ Hf Hb)|].
  split; [exact (bytes_of_frame_exact _ _ _ _ _ _ Hf Hb)|].
  intros Hs. split; [exact (number_of_shards_exact _ _ _ _ _ Hf Hs)|exact (chunks_per_shard_exact _ _ _ _ Hs)].
Qed.

(** But accepted settings can exceed them: with extent 2^32 - 1 and chunk size 2 the 32-bit sum wraps
    and the code computes 0 chunks along the dimension instead of 2^31. *)
Definition big_dim : udim := mkudim (Some "z") ty_space (2 ^ 32 - 1) 2 1.
Theorem C44_widths_refuted :
  exists st l, validate_settings ex_env ex_world (Some st) = Ok true /\ st_dims st = Some l /\
    Forall (fun d => 0 <= u_array d < 2 ^ 32 /\ 0 <= u_chunk d < 2 ^ 32) l /\
    exists d, In d l /\ chunks_along_dimension (dim_of d) = Ok 0 /\ ceil_div (u_array d) (u_chunk d) = 2 ^ 31.
Proof.
  exists (mksettings (Some "out") None None None (Some [ex_udim ex_d0; big_dim; ex_udim ex_dy; ex_udim ex_dx]) false dt_uint16 2).
  eexists. split; [vm_compute; reflexivity|]. split; [reflexivity|]. split.
  - repeat constructor; cbn; lia.
  - exists big_dim. split; [right; left; auto|]. split; vm_compute; reflexivity.
Qed.

Print Assumptions C24_created_only_if_documented.
Print Assumptions C24_rejected_without_effect.
Print Assumptions C24_null_settings_rejected.
Print Assumptions C24_documented_accepted.
Print Assumptions C24_null_strings_refuted.
Print Assumptions C41_trim.
Print Assumptions C41_trim_idempotent.
Print Assumptions C41_empty.
Print Assumptions C44_widths_partial.
Print Assumptions C44_widths_refuted.
