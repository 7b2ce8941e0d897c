(** The levels of the model are those of PyramidSpec.v. *)
Require Import ZArith List Bool String Ascii Lia Zify.
Require Import Verif.Base Verif.Spec Verif.Dim Verif.Limits Verif.Radix Verif.Json Verif.PathProofs Verif.World Verif.Writer
  Verif.SinkProofs Verif.CreateProofs Verif.FlushProofs Verif.LayoutProofs Verif.BufProofs Verif.WriterProofs
  Verif.LevelProofs Verif.Stream Verif.MetaProofs Verif.StreamProofs Verif.PyramidProofs Verif.Api Verif.SettingsSpec Verif.ValidProofs
  Verif.SessionSpec Verif.SessionProofs Verif.PyramidSpec.
Import ListNotations.
Open Scope string_scope.
Open Scope list_scope.
Open Scope Z_scope.

Lemma ceil_ceil a k : 0 < a -> ceil_div (ceil_div a (2 ^ Z.of_nat k)) 2 = ceil_div a (2 ^ Z.of_nat (S k)).
Proof.
  intros Ha. unfold ceil_div. rewrite Nat2Z.inj_succ, Z.pow_succ_r by lia. set (p := 2 ^ Z.of_nat k).
  assert (0 < p) by (apply Z.pow_pos_nonneg; lia).
  replace ((a + p - 1) / p + 2 - 1) with ((a + p - 1) / p + 1) by lia.
  rewrite <- (Z.div_add (a + p - 1) 1 p) by lia. rewrite Z.div_div by lia. rewrite (Z.mul_comm p 2). f_equal. lia.
Qed.
Lemma ceil_pos a p : 0 < a -> 0 < p -> 0 < ceil_div a p.
Proof. intros. unfold ceil_div. apply Z.div_str_pos. lia. Qed.
Lemma ceil_mono a b p : a <= b -> 0 < p -> ceil_div a p <= ceil_div b p.
Proof. intros. unfold ceil_div. apply Z.div_le_mono; lia. Qed.
Lemma ceil_2 a : 0 < a -> ceil_div a 2 <= a.
Proof. intros. unfold ceil_div. apply Z.div_le_upper_bound; lia. Qed.
Lemma ceil_self a : 0 < a -> ceil_div a a = 1.
Proof. intros. unfold ceil_div. symmetry. apply (Z.div_unique _ _ 1 (a - 1)); lia. Qed.

Lemma down_at k d : 0 <= d_array d -> 0 < d_chunk d -> down_dim (at_level k d) = at_level (S k) d.
Proof.
  intros Ha Hc. unfold at_level at 2. cbn [Nat.eqb orb]. unfold at_level.
  destruct (Z.eqb_spec (d_type d) ty_channel) as [T|T].
  - rewrite orb_true_r. unfold down_dim. rewrite T, Z.eqb_refl. reflexivity.
  - rewrite orb_false_r. destruct (Nat.eqb_spec k 0) as [->|K].
    + unfold down_dim. rewrite (proj2 (Z.eqb_neq _ _) T). destruct (Z.eqb_spec (d_array d) 0) as [A|A]; [reflexivity|].
      rewrite half_ceil. change (2 ^ Z.of_nat 1) with 2. f_equal. apply Z.min_comm.
    + destruct (Z.eqb_spec (d_array d) 0) as [A|A]; unfold down_dim; cbn [d_type d_array d_chunk d_shard d_name]; rewrite (proj2 (Z.eqb_neq _ _) T).
      * reflexivity.
      * assert (P2 : 0 < 2 ^ Z.of_nat k) by (apply Z.pow_pos_nonneg; lia). pose proof (ceil_pos (d_array d) (2 ^ Z.of_nat k) ltac:(lia) P2) as CP.
        rewrite (proj2 (Z.eqb_neq _ 0)) by lia. rewrite half_ceil, ceil_ceil by lia.
        set (a := ceil_div (d_array d) (2 ^ Z.of_nat k)) in *. set (a' := ceil_div (d_array d) (2 ^ Z.of_nat (S k))) in *.
        assert (AA : a' = ceil_div a 2) by (symmetry; apply ceil_ceil; lia).
        assert (0 < a') by (rewrite AA; apply ceil_pos; lia). assert (a' <= a) by (rewrite AA; apply ceil_2; auto).
        replace (Z.min (Z.min (d_chunk d) a) a') with (Z.min (d_chunk d) a') by lia. f_equal.
        assert (ceil_div a' (Z.min (d_chunk d) a') <= ceil_div a (Z.min (d_chunk d) a)); [|lia].
        destruct (Z.le_gt_cases a' (d_chunk d)) as [X|X].
        -- rewrite (Z.min_r (d_chunk d) a') by lia. rewrite ceil_self by lia. assert (0 < ceil_div a (Z.min (d_chunk d) a)) by (apply ceil_pos; lia). lia.
        -- rewrite !Z.min_l by lia. apply ceil_mono; lia.
Qed.
Lemma at_0 d : at_level 0 d = d. Proof. reflexivity. Qed.

Section U.
Variable u : use.
Hypothesis HU : fair_use u.
Let Ls := u_L0 u :: u_Lr u.

Lemma u_wf d : st_multi (u_set u) = true -> In d (u_dims u) -> 0 <= d_array d /\ 0 < d_chunk d.
Proof.
  intros M. pose proof (fu_fits _ HU) as [? c0 q ? ? ? ? ?]. intros [<-|H]; [destruct (fu_multi _ HU M) as (? & _); lia|]. rewrite Forall_forall in q. destruct (q d H) as (A & B & _). lia.
Qed.

Lemma level_dims i : forall L, nth_error Ls i = Some L ->
  l_d0 L = at_level i (u_d0 u) /\ l_mids L = map (at_level i) (u_mids u) /\ l_dy L = at_level i (u_dy u) /\ l_dx L = at_level i (u_dx u).
Proof.
  induction i as [|i IH]; intros L H.
  - injection H as <-. cbn. rewrite (map_ext _ (fun d => d)) by (intros; apply at_0). rewrite map_id. auto.
  - destruct (st_multi (u_set u)) eqn:M.
    2:{ unfold Ls, u_Lr in H. rewrite M in H. destruct i; discriminate. }
    destruct (nth_error Ls i) as [K|] eqn:HK.
    2:{ apply nth_error_None in HK. assert (S i < List.length Ls)%nat by (apply nth_error_Some; congruence). lia. }
    destruct (IH K eq_refl) as (E0 & E1 & E2 & E3). destruct (u_links u HU M) as [_ B]. destruct (B i K L HK H) as (_ & _ & -> & -> & -> & ->).
    rewrite E0, E1, E2, E3, map_map.
    assert (W := fun d X => u_wf d M X). unfold u_dims in W.
    repeat split; try (apply down_at; apply W).
    + left; reflexivity.
    + left; reflexivity.
    + apply map_ext_in. intros d Hd. apply down_at; apply W; right; apply in_or_app; left; exact Hd.
    + right; apply in_or_app; right; left; reflexivity.
    + right; apply in_or_app; right; left; reflexivity.
    + right; apply in_or_app; right; right; left; reflexivity.
    + right; apply in_or_app; right; right; left; reflexivity.
Qed.

(** *** the number of levels *)
Definition untouched (ds : list dim) (k : nat) : Prop := forall j, (1 <= j <= k)%nat -> ~ chunk_shrinks ds j.
Lemma untouched_chunk ds k d : untouched ds k -> In d ds -> 0 <= d_array d -> d_chunk (at_level k d) = d_chunk d.
Proof.
  intros H Hin Ha. unfold at_level. destruct (Nat.eqb_spec k 0) as [->|K]; [reflexivity|]. cbn [orb].
  destruct (Z.eqb_spec (d_type d) ty_channel) as [T|T]; [reflexivity|]. destruct (Z.eqb_spec (d_array d) 0); [reflexivity|]. cbn [d_chunk].
  destruct (Z.le_gt_cases (d_chunk d) (ceil_div (d_array d) (2 ^ Z.of_nat k))) as [X|X]; [lia|]. exfalso. apply (H k ltac:(lia)). exists d. repeat split; auto. lia.
Qed.
Lemma goes_on_spec c ds k : c_dims c = map (at_level k) ds -> Forall (fun d => 0 <= d_array d /\ 0 < d_chunk d) ds -> untouched ds k ->
  (goes_on c = true -> untouched ds (S k)) /\ (goes_on c = false -> chunk_shrinks ds (S k)).
Proof.
  intros Hc Hp HU0. unfold goes_on. rewrite Hc, map_map. rewrite Forall_forall in Hp.
  assert (EX : existsb (fun p => d_chunk (snd p) <? d_chunk (fst p)) (combine (map (at_level k) ds) (map (fun d => down_dim (at_level k d)) ds)) = existsb (fun d => d_chunk (at_level (S k) d) <? d_chunk (at_level k d)) ds).
  { clear - Hp. induction ds as [|d ds IH]; [reflexivity|]. cbn [map combine existsb fst snd]. rewrite down_at by (apply Hp; left; reflexivity). f_equal. apply IH. intros x Hx. apply Hp. right. exact Hx. }
  rewrite EX. split; intros H.
  - apply negb_true_iff in H. intros j Hj. destruct (Nat.eq_dec j (S k)) as [->|N]; [|apply HU0; lia]. intros (d & Hin & T & A & X).
    assert (existsb (fun d => d_chunk (at_level (S k) d) <? d_chunk (at_level k d)) ds = true); [|congruence]. apply existsb_exists. exists d. split; auto.
    apply Z.ltb_lt. rewrite (untouched_chunk ds k d HU0 Hin) by lia. unfold at_level. cbn [Nat.eqb orb]. rewrite (proj2 (Z.eqb_neq _ _) T), (proj2 (Z.eqb_neq _ 0)) by lia. cbn [d_chunk]. lia.
  - apply negb_false_iff, existsb_exists in H as (d & Hin & X). apply Z.ltb_lt in X. destruct (Hp d Hin) as [A C]. rewrite (untouched_chunk ds k d HU0 Hin A) in X.
    unfold at_level in X. cbn [Nat.eqb orb] in X. destruct (Z.eqb_spec (d_type d) ty_channel) as [T|T]; [lia|]. destruct (Z.eqb_spec (d_array d) 0) as [Z0|Z0]; cbn [d_chunk] in X; [lia|].
    exists d. repeat split; auto; lia.
Qed.
Lemma levs_last bpp mxl t enc ds fuel : forall c d0 mids dy dx k, c_dims c = map (at_level k) ds -> Forall (fun d => 0 <= d_array d /\ 0 < d_chunk d) ds -> untouched ds k ->
  enough fuel c = true -> last_level ds (k + List.length (levs bpp mxl t enc fuel c d0 mids dy dx)).
Proof.
  induction fuel as [|f IH]; intros c d0 mids dy dx k Hc Hp H0 He; [discriminate|]. cbn [enough levs] in *. destruct (goes_on_spec c ds k Hc Hp H0) as [G1 G2]. destruct (goes_on c) eqn:G.
  - specialize (IH (down_cfg c) (down_dim d0) (map down_dim mids) (down_dim dy) (down_dim dx) (S k)). cbn [List.length].
    replace (k + S (List.length (levs bpp mxl t enc f (down_cfg c) (down_dim d0) (map down_dim mids) (down_dim dy) (down_dim dx))))%nat with (S k + List.length (levs bpp mxl t enc f (down_cfg c) (down_dim d0) (map down_dim mids) (down_dim dy) (down_dim dx)))%nat by lia.
    apply IH; auto. cbn [down_cfg with_dims c_dims]. rewrite Hc, map_map. apply map_ext_in. intros d Hd. rewrite Forall_forall in Hp. apply down_at; apply Hp; auto.
  - cbn [List.length]. replace (k + 1)%nat with (S k) by lia. split; [lia|]. split; [auto|]. intros j Hj. apply H0. lia.
Qed.
Lemma level_count : st_multi (u_set u) = true -> last_level (u_dims u) (List.length (u_Lr u)).
Proof.
  intros M. unfold u_Lr. rewrite M.
  pose proof (levs_last (u_bpp u) (u_most u) (u_t u) (u_enc u) (u_dims u) pyramid_fuel (cfg0 u) (u_d0 u) (u_mids u) (u_dy u) (u_dx u) 0%nat) as X.
  set (ll := levs (u_bpp u) (u_most u) (u_t u) (u_enc u) pyramid_fuel (cfg0 u) (u_d0 u) (u_mids u) (u_dy u) (u_dx u)) in *. clearbody ll. apply X.
  - cbn [cfg0 c_dims]. rewrite (map_ext _ (fun d => d)) by (intros; apply at_0). rewrite map_id. reflexivity.
  - apply Forall_forall. intros d Hd. apply u_wf; auto.
  - intros j Hj. lia.
  - destruct (fu_multi _ HU M) as (Z0 & _ & _ & d & Hin & Hs). apply (enough_40 (cfg0 u) d); auto.
    destruct Hin as [<-|Hin]; [lia|]. pose proof (fit_inner _ _ _ _ _ (fu_fits _ HU)) as q. rewrite Forall_forall in q. destruct (q d Hin) as (q1 & q2 & q3). lia.
Qed.
Lemma level_exists i : (i <= List.length (u_Lr u))%nat -> exists L, nth_error Ls i = Some L.
Proof. intros H. destruct (nth_error Ls i) eqn:X; eauto. apply nth_error_None in X. unfold Ls in X. cbn [List.length] in X. lia. Qed.

(** *** frames *)
Lemma frames_count F i : zlen (u_frames u F i) = zlen F / 2 ^ Z.of_nat i.
Proof.
  induction i as [|i IH]; [cbn; rewrite Z.div_1_r; reflexivity|]. cbn [u_frames]. unfold up. unfold zlen at 1. rewrite pairs_length, Nat.div2_div, Nat2Z.inj_div.
  change (Z.of_nat (List.length (u_frames u F i))) with (zlen (u_frames u F i)). rewrite IH. change (Z.of_nat 2) with 2. rewrite Nat2Z.inj_succ, Z.pow_succ_r by lia. rewrite Z.div_div by lia. f_equal. lia.
Qed.

(** 8-bit unsigned *)
Lemma nth_rect (W' : Z) {X} (f : Z * Z -> X) d : 0 <= W' -> forall H' y x, 0 <= y < H' -> 0 <= x < W' ->
  nth (Z.to_nat (y * W' + x)) (map f (flat_map (fun r => map (fun c => (r, c)) (zseq W')) (zseq H'))) d = f (y, x).
Proof.
  intros HW H' y x Hy Hx.
  assert (G : forall n s y, (y < n)%nat -> nth (y * Z.to_nat W' + Z.to_nat x) (map f (flat_map (fun r => map (fun c => (r, c)) (zseq W')) (map Z.of_nat (seq s n)))) d = f (Z.of_nat (s + y), x)).
  { assert (ZL : List.length (zseq W') = Z.to_nat W') by (unfold zseq; rewrite map_length, seq_length; reflexivity).
    induction n as [|n IH]; intros s y' Hy'; [lia|]. cbn [seq map flat_map]. rewrite map_app, map_map. destruct y' as [|y'].
    - rewrite app_nth1 by (rewrite map_length, ZL; lia). rewrite Nat.add_0_r. cbn [Nat.mul Nat.add].
      rewrite (nth_indep _ d (f (Z.of_nat s, 0))) by (rewrite map_length, ZL; lia). rewrite (map_nth (fun c => f (Z.of_nat s, c)) (zseq W') 0).
      f_equal. f_equal. unfold zseq. change 0 with (Z.of_nat 0) at 1. rewrite map_nth, seq_nth by lia. lia.
    - rewrite app_nth2 by (rewrite map_length, ZL; nia). rewrite map_length, ZL. replace (S y' * Z.to_nat W' + Z.to_nat x - Z.to_nat W')%nat with (y' * Z.to_nat W' + Z.to_nat x)%nat by nia.
      rewrite IH by lia. f_equal. f_equal. lia. }
  specialize (G (Z.to_nat H') 0%nat (Z.to_nat y) ltac:(lia)). replace (Z.to_nat (y * W' + x)) with (Z.to_nat y * Z.to_nat W' + Z.to_nat x)%nat by nia. unfold zseq at 2. rewrite G. cbn [Nat.add]. f_equal. f_equal; lia.
Qed.
Lemma scaled_halved W H src : 0 < W -> 0 < H -> halved W H src (scaled dt_uint8 W H src).
Proof.
  intros HW HH. unfold halved. rewrite <- !half_ceil. pose proof (half_pos _ HW). pose proof (half_pos _ HH). split.
  - unfold scaled, zlen. rewrite map_length.
    assert (G : forall l : list Z, List.length (flat_map (fun r => map (fun c => (r, c)) (zseq (half W))) l) = (List.length l * Z.to_nat (half W))%nat).
    { induction l as [|a l IH]; [reflexivity|]. cbn [flat_map]. rewrite app_length, map_length, IH. unfold zseq. rewrite map_length, seq_length. cbn [List.length]. lia. }
    rewrite G. unfold zseq. rewrite map_length, seq_length. nia.
  - intros y x Hy Hx. unfold scaled, getb at 1. rewrite (nth_rect (half W)) by lia. cbn [fst snd]. unfold quart. change (is_float dt_uint8) with false. cbv beta iota. unfold scale_sum. f_equal.
    pose proof (half_even W) as EW. pose proof (half_even H) as EH. pose proof (Z.mod_pos_bound W 2 ltac:(lia)) as MW. pose proof (Z.mod_pos_bound H 2 ltac:(lia)) as MH.
    assert (AX : (if (2 * x =? W - 1) && (W mod 2 =? 1) then 0 else 1) = Z.min (2 * x + 1) (W - 1) - 2 * x).
    { destruct (Z.eqb_spec (2 * x) (W - 1)), (Z.eqb_spec (W mod 2) 1); cbn [andb]; lia. }
    assert (AY : (if (2 * y =? H - 1) && (H mod 2 =? 1) then 0 else W) = (Z.min (2 * y + 1) (H - 1) - 2 * y) * W).
    { destruct (Z.eqb_spec (2 * y) (H - 1)) as [P|P], (Z.eqb_spec (H mod 2) 1) as [Q|Q]; cbn [andb].
      - replace (Z.min (2 * y + 1) (H - 1) - 2 * y) with 0 by lia. reflexivity.
      - exfalso. lia.
      - replace (Z.min (2 * y + 1) (H - 1) - 2 * y) with 1 by lia. lia.
      - replace (Z.min (2 * y + 1) (H - 1) - 2 * y) with 1 by lia. lia. }
    rewrite AX, AY. set (y1 := Z.min (2 * y + 1) (H - 1)). set (x1 := Z.min (2 * x + 1) (W - 1)).
    f_equal; [f_equal; [f_equal|]|]; f_equal; lia.
Qed.
Lemma average_meaned : forall a b, zlen a = zlen b -> Forall (fun z => 0 <= z < 256) a -> Forall (fun z => 0 <= z < 256) b ->
  meaned b a (pixels_bytes dt_uint8 1 (average_two dt_uint8 a b)).
Proof.
  assert (G : forall a b, List.length a = List.length b -> Forall (fun z => 0 <= z < 256) a -> Forall (fun z => 0 <= z < 256) b ->
    List.length (pixels_bytes dt_uint8 1 (average_two dt_uint8 a b)) = List.length a /\ forall i, (i < List.length a)%nat -> nth i (pixels_bytes dt_uint8 1 (average_two dt_uint8 a b)) 0 = (nth i b 0 + nth i a 0) / 2).
  { induction a as [|x a IH]; intros [|y b] L HA HB; try discriminate; [split; [reflexivity|intros; cbn in *; lia]|].
    inversion HA as [|? ? Hx Ha]; subst. inversion HB as [|? ? Hy Hb]; subst. destruct (IH b ltac:(cbn in L; lia) Ha Hb) as [L1 N1].
    cbn [average_two pixels_bytes flat_map]. change (pixel_bytes dt_uint8 1 (mean2 dt_uint8 x y)) with [mean2 dt_uint8 x y mod 256]. cbn [app List.length].
    change (mean2 dt_uint8 x y) with ((x + y) / 2). rewrite Z.mod_small by (split; [apply Z.div_pos; lia|apply Z.div_lt_upper_bound; lia]).
    split; [f_equal; exact L1|]. intros [|i] Hi; cbn [nth]; [f_equal; lia|]. apply N1. cbn in Hi. lia. }
  intros a b L HA HB. destruct (G a b ltac:(unfold zlen in L; lia) HA HB) as [L1 N1]. unfold meaned, zlen in *. split; [lia|]. split; [lia|].
  intros i Hi. unfold getb. rewrite N1 by lia. reflexivity.
Qed.
Definition bytes_img (f : list Z) : Prop := Forall (fun z => 0 <= z < 256) f.
Lemma scaled_bytes W H src : bytes_img src -> bytes_img (scaled dt_uint8 W H src).
Proof.
  intros HB. unfold scaled, bytes_img in *. apply Forall_map, Forall_forall. intros [r c] _. cbn [fst snd]. unfold quart. change (is_float dt_uint8) with false. cbv beta iota. unfold scale_sum.
  assert (B : forall i, 0 <= getb src i < 256). { intros i. unfold getb. destruct (nth_in_or_default (Z.to_nat i) src 0) as [X| ->]; [|lia]. rewrite Forall_forall in HB. apply HB; exact X. }
  match goal with |- context [getb src ?a + getb src ?b + getb src ?c + getb src ?d] => pose proof (B a); pose proof (B b); pose proof (B c); pose proof (B d) end.
  split; [apply Z.div_pos; lia|apply Z.div_lt_upper_bound; lia].
Qed.
Lemma pixels_bytes_bytes l : Forall (fun z => 0 <= z < 256) (pixels_bytes dt_uint8 1 l).
Proof. induction l as [|a l IH]; [constructor|]. cbn [pixels_bytes flat_map]. apply Forall_app. split; [|exact IH]. change (pixel_bytes dt_uint8 1 a) with [a mod 256]. constructor; [apply Z.mod_pos_bound; lia|constructor]. Qed.
End U.

(** frames of an 8-bit unsigned stream *)
Section U8.
Variable u : use.
Hypothesis HU : fair_use u.
Hypothesis H8 : st_dtype (u_set u) = dt_uint8.
Variable F : list (list Z).
Hypothesis HB : Forall bytes_img F.
Let Ls := u_L0 u :: u_Lr u.

Lemma bpp_1 : u_bpp u = 1.
Proof. pose proof (fu_bpp _ HU) as X. rewrite H8 in X. cbn in X. congruence. Qed.
Lemma frames_bytes i : Forall bytes_img (u_frames u F i).
Proof.
  induction i as [|i IH]; [exact HB|]. cbn [u_frames]. unfold up. rewrite H8. clear IH.
  generalize (u_frames u F i). intros l. induction l as [|a|a b l IH] using two_step; cbn [pairs]; try constructor; auto.
  unfold mean. change (l_bpp (u_L0 u)) with (u_bpp u). rewrite bpp_1. apply pixels_bytes_bytes.
Qed.
Lemma frames_next i L : nth_error Ls i = Some L -> next_level (d_array (l_dx L)) (d_array (l_dy L)) (u_frames u F i) (u_frames u F (S i)).
Proof.
  intros HL. split.
  - rewrite !frames_count. rewrite Nat2Z.inj_succ, Z.pow_succ_r by lia. rewrite Z.div_div by lia. f_equal. lia.
  - cbn [u_frames]. unfold up. intros j Hj. rewrite (pairs_nth _ _ _ (Z.to_nat j)) by (unfold zlen in Hj; lia).
    replace (Z.to_nat (2 * j)) with (2 * Z.to_nat j)%nat by lia. replace (Z.to_nat (2 * j + 1)) with (2 * Z.to_nat j + 1)%nat by lia.
    set (f0 := nth (2 * Z.to_nat j) (u_frames u F i) []). set (f1 := nth (2 * Z.to_nat j + 1) (u_frames u F i) []).
    assert (B : forall n, bytes_img (nth n (u_frames u F i) [])).
    { intros n. destruct (nth_in_or_default n (u_frames u F i) []) as [X| ->]; [|constructor]. pose proof (frames_bytes i) as FB. rewrite Forall_forall in FB. apply FB. exact X. }
    assert (DA : forall f, down (u_L0 u) (u_Lr u) (st_dtype (u_set u)) (S i) f = scaled dt_uint8 (d_array (l_dx L)) (d_array (l_dy L)) f).
    { intros f. unfold down, dims_at. replace (S i - 1)%nat with i by lia. fold Ls. rewrite HL, H8. reflexivity. }
    rewrite !DA. destruct (u_lgood u HU i L HL) as [OK _]. pose proof (lo_f _ _ _ _ _ _ OK) as [? ? q ? ? ? ? ?]. apply Forall_app in q as [_ q].
    inversion q as [|? ? (a1 & _) q']; subst. inversion q' as [|? ? (a2 & _) _]; subst.
    pose proof (scaled_halved (d_array (l_dx L)) (d_array (l_dy L)) f0 a2 a1) as S0. pose proof (scaled_halved (d_array (l_dx L)) (d_array (l_dy L)) f1 a2 a1) as S1.
    exists (scaled dt_uint8 (d_array (l_dx L)) (d_array (l_dy L)) f0), (scaled dt_uint8 (d_array (l_dx L)) (d_array (l_dy L)) f1). split; [exact S0|]. split; [exact S1|].
    unfold mean. change (l_bpp (u_L0 u)) with (u_bpp u). rewrite bpp_1, H8. apply average_meaned.
    + rewrite (proj1 S0), (proj1 S1). reflexivity.
    + apply scaled_bytes, B.
    + apply scaled_bytes, B.
Qed.
End U8.
