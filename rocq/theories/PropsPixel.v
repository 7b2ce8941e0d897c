(** C28 for every data type: what the levels of a pyramid hold. Vocabulary: PixelSpec.v, StoreSpec.v. *)
Require Import ZArith List Bool String Ascii Lia Zify.
Require Import Verif.Base Verif.Spec Verif.Dim Verif.Limits Verif.World Verif.Writer Verif.Stream Verif.Api
  Verif.SettingsSpec Verif.SessionSpec Verif.SessionProofs Verif.PyramidSpec Verif.StoreSpec Verif.PixelSpec Verif.StreamProofs Verif.LevelsProofs
  Verif.ChunkStore Verif.StoreProofs Verif.PropsMeta Verif.PropsChunks Verif.PropsStore Verif.PixelProofs Verif.Examples Verif.ExamplesUse.
Import ListNotations.
Open Scope string_scope.
Open Scope list_scope.
Open Scope Z_scope.

(** Every data type (int8 excepted, which [fair_use] excludes): frame j of level k + 1 is made of frames 2j and 2j + 1 of level k, each pixel of four
    bytes of either; for types of one byte this is the mean of eight pixels, for wider types the code mixes up bytes and pixels (C28_refuted).
    The stored integers and IEEE numbers are exact. *)
Theorem C28_every_type_partial : forall u groups,
  fair_use u -> whole_frames u groups -> Forall (Forall (fun b => 0 <= b < 256)) (List.concat groups) ->
  exists G, G 0%nat = List.concat groups /\
    (forall k, is_level u (S k) -> next_any (st_dtype (u_set u)) (u_bpp u) (lv_W u k) (lv_H u k) (G k) (G (S k))) /\
    (forall k, is_level u k ->
      (st_version (u_set u) = 2 -> level_v2 u groups k (G k)) /\
      (st_version (u_set u) = 3 -> level_v3 u groups k (G k))).
Proof.
  intros u groups HU HG HB. exists (u_frames u (List.concat groups)). split; [reflexivity|].
  split; [intros k Hk; apply any_next; auto|]. intros k Hk. split; intros V; [apply s_level_v2; auto|apply s_level_v3; auto].
Qed.
Example C28_every_type_hypotheses : forall dt bpp, In (dt, bpp) [(dt_uint8, 1); (dt_uint16, 2); (dt_int32, 4); (dt_float64, 8)] ->
  exists u, fair_use u /\ whole_frames u (ex_groups bpp 6) /\ is_level u 1 /\ st_dtype (u_set u) = dt /\ u_bpp u = bpp.
Proof.
  intros dt bpp H. exists (ex_use 2 false None true dt bpp ex_d0).
  assert (HU : fair_use (ex_use 2 false None true dt bpp ex_d0)) by (apply ex_use_fair; [auto|auto|exact H|left; reflexivity]).
  split; [exact HU|]. cbn in H. destruct H as [H|[H|[H|[H|[]]]]]; injection H as <- <-;
    (split; [apply ex_frames_whole; [vm_compute; discriminate|lia]|]; split; [apply is_level_nth; [exact HU|]; eexists; vm_compute; reflexivity|split; reflexivity]).
Qed.
(** the numbers are what they should be: 1.5 in binary32 and binary64, and the 16-bit integer 300 *)
Example C28_pixel_is : pixel_is dt_float32 [0; 0; 192; 63] 12 /\ pixel_is dt_float64 [0; 0; 0; 0; 0; 0; 248; 63] 12 /\ pixel_is dt_uint16 [44; 1] 2400.
Proof. split; [right; vm_compute; auto|split; [right; vm_compute; auto|vm_compute; reflexivity]]. Qed.

(** Images too large for the 32-bit byte count of a scaled image: a frame given to a multiscale stream runs into undefined behaviour (a double of 2^32
    or more is cast to uint32_t), whatever its pixels are. *)
Theorem C28_large_images : forall E s w d0 mids dy dx bpp data,
  s_multi s = true -> s_dims s = d0 :: mids ++ [dy; dx] -> bytes_of_type (s_dtype s) = Ok bpp -> (2 <= List.length (s_writers s))%nat ->
  0 < d_array dx < 2 ^ 31 -> 0 < d_array dy < 2 ^ 31 -> d_array dy * d_array dx < 2 ^ 32 ->
  2 ^ 32 <= ceil_div (d_array dx) 2 * ceil_div (d_array dy) 2 * bpp -> zlen data = d_array dy * d_array dx * bpp ->
  snd (write_multiscale E data (zlen data) (s, w)) = UB.
Proof.
  intros E s w d0 mids dy dx bpp data M D B L HX HY HF Big Hz. unfold write_multiscale, bind, getT. cbn [fst]. rewrite M.
  assert (Hd : (dt_count <=? s_dtype s) = false /\ 0 < bpp <= 8).
  { unfold bytes_of_type in B. repeat match type of B with context [if ?c then _ else _] => destruct c eqn:?Q end; try discriminate; injection B as <-; (split; [|lia]);
      repeat match goal with H : (_ || _)%bool = true |- _ => apply orb_true_iff in H; destruct H as [H|H] end;
      match goal with H : (s_dtype s =? _) = true |- _ => apply Z.eqb_eq in H; rewrite H; reflexivity end. }
  destruct Hd as [Hd Hb]. rewrite Hd, B. unfold liftM at 1. rewrite D, DimProofs.width_dim_eq, DimProofs.height_dim_eq.
  replace (List.length (s_writers s) - 1)%nat with (S (List.length (s_writers s) - 2)) by lia. cbn [multiscale_loop]. unfold bind, getT. cbn [fst]. unfold liftM at 1.
  rewrite <- !half_ceil in Big. set (W := d_array dx) in *. set (H := d_array dy) in *.
  assert (X : scale_image (s_dtype s) bpp data (zlen data) W H = UB); [|rewrite X; reflexivity].
  unfold scale_image. assert (HW := half_even W). assert (HH := half_even H).
  assert (U1 : u64 (W * H) = W * H) by (unfold u64; apply Z.mod_small; nia).
  assert (U2 : u64 (W * H * bpp) <= W * H * bpp) by (unfold u64; apply Z.mod_le; [|lia]; apply Z.mul_nonneg_nonneg; nia).
  rewrite U1. replace (zlen data <? u64 (W * H * bpp)) with false by (symmetry; apply Z.ltb_ge; lia).
  assert (N : (W + W mod 2) * (H + H mod 2) * bpp / 4 = half W * half H * bpp).
  { rewrite <- HW, <- HH. replace (2 * half W * (2 * half H) * bpp) with (half W * half H * bpp * 4) by lia. apply Z.div_mul. lia. }
  rewrite N. replace (2 ^ 32 <=? half W * half H * bpp) with true by (symmetry; apply Z.leb_le; lia). reflexivity.
Qed.
(** sizes that meet the hypotheses: an image of 65535 x 65536 pixels of 8 bytes *)
Example C28_large_images_hypotheses : 65535 * 65536 < 2 ^ 32 /\ 2 ^ 32 <= ceil_div 65536 2 * ceil_div 65535 2 * 8 /\ bytes_of_type dt_float64 = Ok 8.
Proof. vm_compute. repeat split; discriminate. Qed.

Print Assumptions C28_every_type_partial.
Print Assumptions C28_large_images.

