(** Pixels of the levels of a pyramid: the model computes what PixelSpec.v says. *)
Require Import ZArith List Bool String Ascii Lia Zify.
Require Import Verif.Base Verif.Spec Verif.Dim Verif.Limits Verif.Radix Verif.Json Verif.PathProofs Verif.World Verif.Writer
  Verif.SinkProofs Verif.CreateProofs Verif.FlushProofs Verif.LayoutProofs Verif.BufProofs Verif.WriterProofs
  Verif.LevelProofs Verif.Stream Verif.MetaProofs Verif.StreamProofs Verif.PyramidProofs Verif.Api Verif.SettingsSpec Verif.ValidProofs
  Verif.SessionSpec Verif.SessionProofs Verif.PyramidSpec Verif.PixelSpec Verif.LevelsProofs Verif.ChunkStore Verif.StoreSpec.
Import ListNotations.
Open Scope string_scope.
Open Scope list_scope.
Open Scope Z_scope.

Lemma four_sum W H src y x : 0 < W -> 0 < H -> 0 <= y < half H -> 0 <= x < half W -> scale_sum src W H (2 * y) (2 * x) = four W H src y x.
Proof.
  intros HW HH Hy Hx. unfold scale_sum, four.
  pose proof (half_even W) as EW. pose proof (half_even H) as EH. pose proof (Z.mod_pos_bound W 2 ltac:(lia)) as MW. pose proof (Z.mod_pos_bound H 2 ltac:(lia)) as MH.
  assert (AX : (if (2 * x =? W - 1) && (W mod 2 =? 1) then 0 else 1) = Z.min (2 * x + 1) (W - 1) - 2 * x).
  { destruct (Z.eqb_spec (2 * x) (W - 1)), (Z.eqb_spec (W mod 2) 1); cbn [andb]; lia. }
  assert (AY : (if (2 * y =? H - 1) && (H mod 2 =? 1) then 0 else W) = (Z.min (2 * y + 1) (H - 1) - 2 * y) * W).
  { destruct (Z.eqb_spec (2 * y) (H - 1)) as [P|P], (Z.eqb_spec (H mod 2) 1) as [Q|Q]; cbn [andb].
    - replace (Z.min (2 * y + 1) (H - 1) - 2 * y) with 0 by lia. reflexivity.
    - exfalso. lia.
    - replace (Z.min (2 * y + 1) (H - 1) - 2 * y) with 1 by lia. lia.
    - replace (Z.min (2 * y + 1) (H - 1) - 2 * y) with 1 by lia. lia. }
  rewrite AX, AY. set (y1 := Z.min (2 * y + 1) (H - 1)). set (x1 := Z.min (2 * x + 1) (W - 1)).
  f_equal; [f_equal; [f_equal|]|]; f_equal; lia.
Qed.
Lemma getb_byte src : bytes_img src -> forall i, 0 <= getb src i < 256.
Proof. intros HB i. unfold getb. destruct (nth_in_or_default (Z.to_nat i) src 0) as [X| ->]; [|lia]. unfold bytes_img in HB. rewrite Forall_forall in HB. apply HB; exact X. Qed.
Lemma four_bound W H src y x : bytes_img src -> 0 <= four W H src y x <= 1020.
Proof. intros HB. pose proof (getb_byte src HB) as B. unfold four. match goal with |- context [getb src ?a + getb src ?b + getb src ?c + getb src ?d] => pose proof (B a); pose proof (B b); pose proof (B c); pose proof (B d) end. lia. Qed.

(** *** one pixel *)
Lemma float_bits_is eb m n : 2 <= eb <= 11 -> 11 <= m <= 52 -> 2 ^ (eb - 1) >= 128 -> 0 <= n < 2 ^ 11 ->
  float_is eb m (float_bits m (2 ^ (eb - 1) - 1) n) n /\ 0 <= float_bits m (2 ^ (eb - 1) - 1) n < 2 ^ (eb + m).
Proof.
  intros Heb Hm Hb Hn. unfold float_bits. destruct (Z.eqb_spec n 0) as [->|N]; [split; [left; auto|split; [lia|apply Z.pow_pos_nonneg; lia]]|].
  cbv zeta. set (e := Z.log2 n). set (bias := 2 ^ (eb - 1) - 1) in *.
  destruct (Z.log2_spec n ltac:(lia)) as [L1 L2]. fold e in L1, L2. assert (E0 : 0 <= e) by apply Z.log2_nonneg.
  assert (E1 : e < 11). { apply Z.log2_lt_pow2; lia. }
  assert (P1 : 0 < 2 ^ (m - e)) by (apply Z.pow_pos_nonneg; lia). assert (P2 : 0 < 2 ^ e) by (apply Z.pow_pos_nonneg; lia).
  assert (PM : 2 ^ m = 2 ^ e * 2 ^ (m - e)). { rewrite <- Z.pow_add_r by lia. f_equal. lia. }
  rewrite Z.pow_succ_r in L2 by lia.
  set (f := (n - 2 ^ e) * 2 ^ (m - e)). assert (F : 0 <= f < 2 ^ m) by (unfold f; rewrite PM; nia).
  assert (EB : 2 ^ eb = 2 * 2 ^ (eb - 1)). { rewrite <- Z.pow_succ_r by lia. f_equal. lia. }
  assert (X : 0 < e - 3 + bias < 2 ^ eb - 1) by (unfold bias; lia).
  assert (Q1 : ((e - 3 + bias) * 2 ^ m + f) / 2 ^ m = e - 3 + bias). { rewrite Z.add_comm, Z.div_add by lia. rewrite Z.div_small; lia. }
  assert (Q2 : ((e - 3 + bias) * 2 ^ m + f) mod 2 ^ m = f). { rewrite Z.add_comm, Z.mod_add by lia. apply Z.mod_small; lia. }
  split.
  - right. fold bias. cbv zeta. rewrite Q1, Q2. split; [exact X|].
    assert (A : 2 ^ m + f = n * 2 ^ (m - e)) by (unfold f; rewrite PM; ring).
    assert (B : 2 ^ (bias + m) = 2 ^ (m - e) * 2 ^ (e - 3 + bias) * 8).
    { change 8 with (2 ^ 3). rewrite <- !Z.pow_add_r by lia. f_equal. lia. }
    rewrite A, B. ring.
  - rewrite Z.pow_add_r by lia. nia.
Qed.
Lemma pixel_ok dt bpp s0 s1 : bytes_of_type dt = Ok bpp -> 0 <= s0 <= 1020 -> 0 <= s1 <= 1020 ->
  pixel_is dt (pixel_bytes dt bpp (mean2 dt (quart dt s1) (quart dt s0))) (mixed dt s0 s1).
Proof.
  intros Hb H0 H1. unfold pixel_is, pixel_bytes, mixed.
  destruct (dt =? dt_float32) eqn:F4.
  { apply Z.eqb_eq in F4. subst dt. cbn [orb]. unfold quart. change (is_float dt_float32) with true. cbv iota.
    replace (mean2 dt_float32 (2 * s1) (2 * s0)) with (s0 + s1) by (change (s0 + s1 = (2 * s1 + 2 * s0) / 2); rewrite <- Z.mul_add_distr_l, (Z.mul_comm 2), Z.div_mul by lia; lia).
    destruct (float_bits_is 8 23 (s0 + s1)) as [A B]; [lia|lia|vm_compute; discriminate|lia|]. change (2 ^ (8 - 1) - 1) with 127 in *.
    rewrite le_value_bytes; [exact A|]. change (256 ^ Z.of_nat 4) with (2 ^ 32). lia. }
  destruct (dt =? dt_float64) eqn:F8.
  { apply Z.eqb_eq in F8. subst dt. cbn [orb]. unfold quart. change (is_float dt_float64) with true. cbv iota.
    replace (mean2 dt_float64 (2 * s1) (2 * s0)) with (s0 + s1) by (change (s0 + s1 = (2 * s1 + 2 * s0) / 2); rewrite <- Z.mul_add_distr_l, (Z.mul_comm 2), Z.div_mul by lia; lia).
    destruct (float_bits_is 11 52 (s0 + s1)) as [A B]; [lia|lia|vm_compute; discriminate|lia|]. change (2 ^ (11 - 1) - 1) with 1023 in *.
    rewrite le_value_bytes; [exact A|]. change (256 ^ Z.of_nat 8) with (2 ^ 64). change (11 + 52) with 63 in B. lia. }
  cbn [orb]. unfold quart, is_float. rewrite F4, F8. cbn [orb].
  assert (Q : forall s, 0 <= s <= 1020 -> 0 <= s / 4 <= 255) by (intros s Hs; split; [apply Z.div_pos; lia|apply Z.div_le_upper_bound; lia]).
  pose proof (Q s0 H0). pose proof (Q s1 H1).
  assert (ME : mean2 dt (s1 / 4) (s0 / 4) = (s0 / 4 + s1 / 4) / 2).
  { unfold mean2, u32, u64. rewrite !(Z.mod_small (s1 / 4 + s0 / 4)) by lia. rewrite (Z.add_comm (s1 / 4)). destruct (dt =? dt_uint32), (dt =? dt_uint64); reflexivity. }
  rewrite ME. f_equal. symmetry. apply le_value_bytes.
  assert (0 <= (s0 / 4 + s1 / 4) / 2 < 256) by (split; [apply Z.div_pos; lia|apply Z.div_lt_upper_bound; lia]).
  assert (256 ^ 1 <= 256 ^ Z.of_nat (Z.to_nat bpp)); [|lia]. apply Z.pow_le_mono_r; [lia|].
  unfold bytes_of_type in Hb. repeat match type of Hb with context [if ?c then _ else _] => destruct c end; try discriminate; injection Hb as <-; vm_compute; discriminate.
Qed.

(** *** one frame *)
Lemma average_nth dt : forall a b i, (i < List.length a)%nat -> List.length a = List.length b -> nth i (average_two dt a b) 0 = mean2 dt (nth i a 0) (nth i b 0).
Proof. induction a as [|x a IH]; intros [|y b] [|i] Hi L; cbn in *; try lia; auto. apply IH; lia. Qed.
Lemma slice_pixels dt bpp : bytes_of_type dt = Ok bpp -> 0 < bpp -> forall l i, (i < List.length l)%nat ->
  slice (pixels_bytes dt bpp l) (Z.of_nat i * bpp) bpp = pixel_bytes dt bpp (nth i l 0).
Proof.
  intros Hb Hp. unfold slice. assert (L : forall v, List.length (pixel_bytes dt bpp v) = Z.to_nat bpp) by (intros; apply pixel_bytes_length; auto).
  induction l as [|a l IH]; intros i Hi; [cbn in Hi; lia|]. cbn [pixels_bytes flat_map]. destruct i as [|i].
  - change (Z.to_nat (Z.of_nat 0 * bpp)) with 0%nat. cbn [skipn nth]. rewrite <- (L a). rewrite firstn_app, Nat.sub_diag, firstn_all. cbn. apply app_nil_r.
  - replace (Z.to_nat (Z.of_nat (S i) * bpp)) with (List.length (pixel_bytes dt bpp a) + Z.to_nat (Z.of_nat i * bpp))%nat by (rewrite L; nia).
    rewrite skipn_app. rewrite skipn_all2 by lia. cbn [app]. rewrite Nat.add_comm, Nat.add_sub. apply IH. cbn in Hi. lia.
Qed.
Lemma frame_any dt bpp W H f0 f1 : bytes_of_type dt = Ok bpp -> 0 < bpp -> 0 < W -> 0 < H -> bytes_img f0 -> bytes_img f1 ->
  let g := pixels_bytes dt bpp (average_two dt (scaled dt W H f1) (scaled dt W H f0)) in
  zlen g = half H * half W * bpp /\
  forall y x, 0 <= y < half H -> 0 <= x < half W -> pixel_is dt (slice g ((y * half W + x) * bpp) bpp) (mixed dt (four W H f0 y x) (four W H f1 y x)).
Proof.
  intros Hb Hp HW HH B0 B1 g. pose proof (half_pos _ HW) as PW. pose proof (half_pos _ HH) as PH.
  assert (SL : forall f, List.length (scaled dt W H f) = (Z.to_nat (half H) * Z.to_nat (half W))%nat).
  { intros f. unfold scaled. rewrite map_length, (flat_map_const _ (Z.to_nat (half W))), zseq_length by (intros; rewrite map_length, zseq_length; reflexivity). lia. }
  split.
  - unfold g, zlen. rewrite (pixels_bytes_length dt bpp _ Hb), average_length, SL. rewrite !Nat2Z.inj_mul, !Z2Nat.id by lia. ring.
  - intros y x Hy Hx. set (i := Z.to_nat (y * half W + x)). assert (I : Z.of_nat i = y * half W + x) by (unfold i; nia).
    assert (Il : (i < Z.to_nat (half H) * Z.to_nat (half W))%nat). { apply Nat2Z.inj_lt. rewrite I, Nat2Z.inj_mul, !Z2Nat.id by lia. nia. }
    unfold g. rewrite <- I. rewrite (slice_pixels dt bpp Hb Hp) by (rewrite average_length, SL; exact Il).
    rewrite average_nth by (rewrite ?SL; auto).
    assert (N : forall f, nth i (scaled dt W H f) 0 = quart dt (four W H f y x)).
    { intros f. unfold scaled, i. rewrite (nth_rect (half W)) by lia. cbn [fst snd]. rewrite four_sum by lia. reflexivity. }
    rewrite !N. apply pixel_ok; auto; apply four_bound; auto.
Qed.

(** *** the levels *)
Lemma le_bytes_range n : forall x, Forall (fun z => 0 <= z < 256) (le_bytes n x).
Proof. induction n as [|n IH]; intros x; cbn; constructor; auto. apply Z.mod_pos_bound; lia. Qed.
Lemma pixels_range dt bpp l : bytes_img (pixels_bytes dt bpp l).
Proof. unfold bytes_img. induction l as [|a l IH]; [constructor|]. cbn [pixels_bytes flat_map]. apply Forall_app. split; [|exact IH]. unfold pixel_bytes. destruct (dt =? dt_float32), (dt =? dt_float64); apply le_bytes_range. Qed.

Section U.
Variable u : use.
Hypothesis HU : fair_use u.
Variable F : list (list Z).
Hypothesis HB : Forall bytes_img F.
Lemma any_bytes i : Forall bytes_img (u_frames u F i).
Proof.
  destruct i as [|i]; [exact HB|]. cbn [u_frames]. unfold up. generalize (u_frames u F i). intros l.
  induction l as [|a|a b l IH] using two_step; cbn [pairs]; try constructor; auto. apply pixels_range.
Qed.
Lemma any_next i : is_level u (S i) -> next_any (st_dtype (u_set u)) (u_bpp u) (lv_W u i) (lv_H u i) (u_frames u F i) (u_frames u F (S i)).
Proof.
  intros Hi. apply (is_level_nth u HU) in Hi as (K & HK). assert (HLt : (S i < List.length (u_L0 u :: u_Lr u))%nat) by (apply nth_error_Some; congruence).
  destruct (nth_error (u_L0 u :: u_Lr u) i) as [L|] eqn:HL; [|apply nth_error_None in HL; lia].
  destruct (level_names u HU i L HL) as (_ & _ & <- & <- & _). unfold next_any. cbv zeta. rewrite <- !half_ceil. split.
  - rewrite !frames_count. rewrite Nat2Z.inj_succ, Z.pow_succ_r by lia. rewrite Z.div_div by lia. f_equal. lia.
  - cbn [u_frames]. unfold up. intros j Hj. rewrite (pairs_nth _ _ _ (Z.to_nat j)) by (unfold zlen in Hj; lia).
    replace (Z.to_nat (2 * j)) with (2 * Z.to_nat j)%nat by lia. replace (Z.to_nat (2 * j + 1)) with (2 * Z.to_nat j + 1)%nat by lia.
    assert (B : forall n, bytes_img (nth n (u_frames u F i) [])).
    { intros n. destruct (nth_in_or_default n (u_frames u F i) []) as [X| ->]; [|constructor]. pose proof (any_bytes i) as FB. rewrite Forall_forall in FB. apply FB. exact X. }
    assert (DA : forall f, down (u_L0 u) (u_Lr u) (st_dtype (u_set u)) (S i) f = scaled (st_dtype (u_set u)) (d_array (l_dx L)) (d_array (l_dy L)) f).
    { intros f. unfold down, dims_at. replace (S i - 1)%nat with i by lia. rewrite HL. reflexivity. }
    rewrite !DA. destruct (u_lgood u HU i L HL) as [OK _]. pose proof (lo_f _ _ _ _ _ _ OK) as [? ? q ? ? ? ? ?]. apply Forall_app in q as [_ q].
    inversion q as [|? ? (a1 & _) q']; subst. inversion q' as [|? ? (a2 & _) _]; subst.
    unfold mean. change (l_bpp (u_L0 u)) with (u_bpp u). apply frame_any; auto; [apply (fu_bpp _ HU)|apply (Limits.fit_bpp _ _ _ _ _ (fu_fits _ HU))].
Qed.
End U.
