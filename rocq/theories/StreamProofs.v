(** A stream on a machine where nothing fails: whole-frame appends reach every level. *)
Require Import ZArith List Bool String Ascii Lia Zify.
Require Import Verif.Base Verif.Spec Verif.Dim Verif.Limits Verif.Radix Verif.Json Verif.PathProofs Verif.World Verif.Writer
  Verif.SinkProofs Verif.CreateProofs Verif.FlushProofs Verif.LayoutProofs Verif.BufProofs Verif.WriterProofs
  Verif.LevelProofs Verif.Stream Verif.MetaProofs.
Import ListNotations.
Open Scope string_scope.
Open Scope list_scope.
Open Scope Z_scope.

(** ** Small facts *)
Lemma upd_length {A} (l : list A) i a : List.length (upd l i a) = List.length l.
Proof.
  revert i. induction l as [|x l IH]; intros [|i]; unfold upd; cbn; auto. f_equal. exact (IH i).
Qed.
Lemma nth_upd {A} (l : list A) i j a d : (i < List.length l)%nat -> nth j (upd l i a) d = if Nat.eqb i j then a else nth j l d.
Proof.
  revert i j. induction l as [|x l IH]; intros i j H; cbn in H; [lia|]. destruct i as [|i]; unfold upd; cbn.
  - destruct j; reflexivity.
  - destruct j as [|j]; [reflexivity|]. apply (IH i j). lia.
Qed.

(** ** Pairing consecutive frames *)
Section Pairs.
Variables (down : list Z -> list Z) (mean : list Z -> list Z -> list Z).
Fixpoint pairs (l : list (list Z)) : list (list Z) :=
  match l with
  | a :: b :: r => mean (down b) (down a) :: pairs r
  | _ => []
  end.
Fixpoint pend (l : list (list Z)) : option (list Z) :=
  match l with
  | [] => None
  | [a] => Some (down a)
  | _ :: _ :: r => pend r
  end.
Lemma two_step (P : list (list Z) -> Prop) : P [] -> (forall a, P [a]) -> (forall a b l, P l -> P (a :: b :: l)) -> forall l, P l.
Proof.
  intros H0 H1 H2. fix IH 1. intros [|a [|b l]]; [exact H0|apply H1|apply H2; apply IH].
Qed.
Lemma pairs_none l x : pend l = None -> pairs (l ++ [x]) = pairs l /\ pend (l ++ [x]) = Some (down x).
Proof.
  induction l as [|a|a b l IH] using two_step; cbn; intros H; auto; [discriminate|].
  destruct (IH H) as [-> ->]. auto.
Qed.
Lemma pairs_some l x p : pend l = Some p -> pairs (l ++ [x]) = pairs l ++ [mean (down x) p] /\ pend (l ++ [x]) = None.
Proof.
  induction l as [|a|a b l IH] using two_step; cbn; intros H; [discriminate|injection H as <-; auto|].
  destruct (IH H) as [-> ->]. auto.
Qed.
Lemma pairs_length l : List.length (pairs l) = Nat.div2 (List.length l).
Proof. induction l as [|a|a b l IH] using two_step; cbn; auto. Qed.
Lemma pairs_nth l i : (i < List.length (pairs l))%nat ->
  nth i (pairs l) [] = mean (down (nth (2 * i + 1) l [])) (down (nth (2 * i) l [])).
Proof.
  revert i. induction l as [|a|a b l IH] using two_step; cbn; intros i H; [lia|lia|].
  destruct i as [|i]; [reflexivity|]. rewrite IH by lia.
  replace (S i + (S i + 0) + 1)%nat with (S (S (i + (i + 0) + 1))) by lia.
  replace (S i + (S i + 0))%nat with (S (S (i + (i + 0)))) by lia. reflexivity.
Qed.
End Pairs.
Lemma div2_le n : (Nat.div2 n <= n)%nat.
Proof. pose proof (Nat.div2_decr n n). apply H. lia. Qed.

(** ** Downscaling succeeds *)
Lemma omap_ok {A B} (f : A -> outcome B) g l : (forall a, In a l -> f a = Ok (g a)) -> omap f l = Ok (map g l).
Proof. induction l as [|a l IH]; cbn; intros H; auto. rewrite (H a) by auto. cbn. rewrite IH; auto. Qed.

Definition half (n : Z) : Z := (n + n mod 2) / 2.
(** the pixels that scale_image computes *)
Definition quart (dt sum : Z) : Z := if is_float dt then 2 * sum else sum / 4.
Definition scaled (dt W H : Z) (src : list Z) : list Z :=
  map (fun rc => quart dt (scale_sum src W H (2 * fst rc) (2 * snd rc)))
      (flat_map (fun r => map (fun c => (r, c)) (zseq (half W))) (zseq (half H))).
Definition scale_fits (bpp W H : Z) : Prop := 0 < W <= 2 ^ 31 - 2 /\ 0 < H <= 2 ^ 31 - 2 /\ half W * half H * bpp < 2 ^ 32 /\ 0 < bpp <= 8.

Lemma half_even n : 2 * half n = n + n mod 2.
Proof. unfold half. pose proof (Z.mod_pos_bound n 2). assert (Z.even (n + n mod 2) = true \/ True) by auto.
  assert ((n + n mod 2) mod 2 = 0). { rewrite Z.add_mod_idemp_r by lia. replace (n + n) with (n * 2) by lia. apply Z.mod_mul. lia. }
  pose proof (Z.div_mod (n + n mod 2) 2). lia. Qed.
Lemma half_pos n : 0 < n -> 0 < half n.
Proof. intros. pose proof (half_even n). pose proof (Z.mod_pos_bound n 2). lia. Qed.

Lemma scale_image_ok dt bpp src W H nb :
  scale_fits bpp W H -> dt <> dt_int8 -> W * H * bpp <= nb ->
  scale_image dt bpp src nb W H = Ok (scaled dt W H src, half W * half H * bpp, half W, half H).
Proof.
  intros (A & B & C & D) Hd Hn. unfold scale_image.
  assert (HW := half_even W). assert (HH := half_even H). pose proof (Z.mod_pos_bound W 2). pose proof (Z.mod_pos_bound H 2).
  assert (U1 : u64 (W * H) = W * H). { unfold u64. apply Z.mod_small. split; [apply Z.mul_nonneg_nonneg; lia|]. assert (W * H < 2 ^ 31 * 2 ^ 31) by (apply Z.mul_lt_mono_nonneg; lia). lia. }
  assert (U2 : u64 (W * H * bpp) <= W * H * bpp). { unfold u64. apply Z.mod_le; [|lia]. apply Z.mul_nonneg_nonneg; [|lia]. apply Z.mul_nonneg_nonneg; lia. }
  rewrite U1. replace (nb <? u64 (W * H * bpp)) with false by (symmetry; apply Z.ltb_ge; lia).
  assert (N : (W + W mod 2) * (H + H mod 2) * bpp / 4 = half W * half H * bpp).
  { rewrite <- HW, <- HH. replace (2 * half W * (2 * half H) * bpp) with (half W * half H * bpp * 4) by lia. apply Z.div_mul. lia. }
  rewrite N. replace (2 ^ 32 <=? half W * half H * bpp) with false by (symmetry; apply Z.leb_gt; lia).
  replace (2 ^ 31 - 2 <? W) with false by (symmetry; apply Z.ltb_ge; lia).
  replace (2 ^ 31 - 2 <? H) with false by (symmetry; apply Z.ltb_ge; lia). cbn [orb].
  change ((W + W mod 2) / 2) with (half W). change ((H + H mod 2) / 2) with (half H).
  rewrite (omap_ok _ (fun rc => quart dt (scale_sum src W H (2 * fst rc) (2 * snd rc)))); [reflexivity|].
  intros rc _. unfold quarter, quart. destruct (is_float dt); auto.
  replace (dt =? dt_int8) with false by (symmetry; apply Z.eqb_neq; auto). reflexivity.
Qed.

Lemma flat_map_const {A B} (f : A -> list B) n l : (forall a, List.length (f a) = n) -> List.length (flat_map f l) = (n * List.length l)%nat.
Proof. intros H. induction l as [|a l IH]; cbn; [lia|]. rewrite app_length, H, IH. lia. Qed.
Lemma zseq_length n : List.length (zseq n) = Z.to_nat n.
Proof. unfold zseq. rewrite map_length, seq_length. reflexivity. Qed.
Lemma scaled_length dt W H src : List.length (scaled dt W H src) = (Z.to_nat (half W) * Z.to_nat (half H))%nat.
Proof.
  unfold scaled. rewrite map_length, (flat_map_const _ (Z.to_nat (half W))), zseq_length; auto.
  intros. rewrite map_length, zseq_length. reflexivity.
Qed.
Lemma average_length dt a b : List.length (average_two dt a b) = List.length a.
Proof. revert b. induction a as [|x a IH]; intros [|y b]; cbn; auto. Qed.
Lemma le_bytes_length n x : List.length (le_bytes n x) = n.
Proof. revert x. induction n; intros; cbn; auto. Qed.
Lemma pixel_bytes_length dt bpp v : bytes_of_type dt = Ok bpp -> List.length (pixel_bytes dt bpp v) = Z.to_nat bpp.
Proof.
  unfold pixel_bytes. intros H.
  destruct (dt =? dt_float32) eqn:A; [apply Z.eqb_eq in A; subst; vm_compute in H; injection H as <-; apply le_bytes_length|].
  destruct (dt =? dt_float64) eqn:B; [apply Z.eqb_eq in B; subst; vm_compute in H; injection H as <-; apply le_bytes_length|].
  apply le_bytes_length.
Qed.
Lemma pixels_bytes_length dt bpp l : bytes_of_type dt = Ok bpp -> List.length (pixels_bytes dt bpp l) = (Z.to_nat bpp * List.length l)%nat.
Proof. intros H. apply flat_map_const. intros. apply pixel_bytes_length; auto. Qed.

(** ** Levels *)
Section St.
Variable E : env.
Hypothesis HE : calm E.
Variables (v3 : bool) (root : string) (bk : option string) (m : nat).
Hypothesis Hroot : root <> "".
Hypothesis Hplain : bk = None -> String.prefix "file:" root = false.
Hypothesis Hbucket : bk <> Some "".
Variables (L0 : lev) (Lr : list lev) (dt : Z).
Let Ls := L0 :: Lr.
Let n := List.length Ls.
Let bpp := l_bpp L0.
Hypothesis Hlev : forall i L, nth_error Ls i = Some L -> lev_ok E v3 root bk m L /\ l_level L = Z.of_nat i.
Hypothesis Hdt : bytes_of_type dt = Ok bpp.
Hypothesis Hdtc : 0 <= dt < dt_count.
(** consecutive levels are halves *)
Hypothesis Hstep : forall i L L', nth_error Ls i = Some L -> nth_error Ls (S i) = Some L' ->
  l_bpp L' = l_bpp L /\ d_array (l_dy L') = half (d_array (l_dy L)) /\ d_array (l_dx L') = half (d_array (l_dx L)) /\
  scale_fits (l_bpp L) (d_array (l_dx L)) (d_array (l_dy L)) /\ dt <> dt_int8.

Definition lv_ok (Fs : list (list (list Z))) (ws : list writer) (w : world) : Prop :=
  List.length ws = n /\ List.length Fs = n /\
  forall i L, nth_error Ls i = Some L -> exists a, nth_error ws i = Some a /\ winv E v3 L (nth i Fs []) a w.

Definition st_ev (e : event) : Prop := exists i L, nth_error Ls i = Some L /\ lev_ev v3 root bk m L e.

Lemma lev_ev_st i L e : nth_error Ls i = Some L -> lev_ev v3 root bk m L e -> st_ev e.
Proof. intros. exists i, L. auto. Qed.

Lemma lev_ev_other i j L L' e p : i <> j -> nth_error Ls i = Some L -> nth_error Ls j = Some L' ->
  lev_ev v3 root bk m L e -> own v3 root m (l_level L') p -> ~ affects (mkloc bk p) e.
Proof.
  intros Hij Hi Hj He Hp. destruct (Hlev i L Hi) as [H1 H2]. destruct (Hlev j L' Hj) as [H3 H4].
  eapply level_ev_not; [exact He|]. intros O. apply Hij. apply Nat2Z.inj. rewrite <- H2, <- H4.
  eapply own_level; [| |exact O|exact Hp]; lia.
Qed.
Lemma lev_ev_kloc L k e : lev_ev v3 root bk m L e -> In k (mnames v3) -> ~ affects (kloc root bk k) e.
Proof. intros He Hk. eapply level_ev_not; [exact He|]. apply mpath_not_own; auto. Qed.
Lemma meta_ev_own e level p : meta_ev root bk (mnames v3) e -> own v3 root m level p -> ~ affects (mkloc bk p) e.
Proof. intros He Hp. eapply meta_ev_not; [exact He|]. intros k Hk ->. exact (mpath_not_own v3 root m k level Hk Hp). Qed.

Lemma wready_lev i L w w' : nth_error Ls i = Some L -> extends (lev_ev v3 root bk m L) w w' -> wready E v3 root bk m w -> wready E v3 root bk m w'.
Proof.
  intros Hi X [R1 R2]. destruct (Hlev i L Hi) as [H1 H2]. split.
  - intros B. eapply free_dirs_ext; [|exact X|auto]. lia.
  - intros B. destruct X as (evs & _ & _ & -> & _). auto.
Qed.
Lemma wready_meta w w' : extends (meta_ev root bk (mnames v3)) w w' -> wready E v3 root bk m w -> wready E v3 root bk m w'.
Proof.
  intros X [R1 R2]. split.
  - intros B p Hp. specialize (R1 B p Hp). change (content E (w_trace w') (LF p) = None).
    rewrite (extends_content E _ w w' _ X); [exact R1|].
    intros e He. assert (Y : ~ affects (mkloc bk p) e).
    { eapply meta_ev_not; [exact He|]. intros k Hk ->. exact (mpath_not_dir v3 root m k Hk Hp). }
    rewrite B in Y. exact Y.
  - intros B. destruct X as (evs & _ & _ & -> & _). auto.
Qed.

Lemma nth_error_lt i L : nth_error Ls i = Some L -> (i < n)%nat.
Proof. intros H. apply nth_error_Some. congruence. Qed.

Lemma lv_meta Fs ws w w' : extends (meta_ev root bk (mnames v3)) w w' -> lv_ok Fs ws w -> lv_ok Fs ws w'.
Proof.
  intros X (A & B & C). repeat split; auto. intros i L Hi. destruct (C i L Hi) as (a & Ha & I). exists a. split; auto.
  destruct (Hlev i L Hi) as [H1 H2].
  apply (winv_ext E v3 root bk m L (nth i Fs []) a w w' _ H1 X); auto.
  - intros e p He Hp. exact (meta_ev_own e _ p He Hp).
  - eapply wready_meta; [exact X|]. eapply winv_ready; eauto.
Qed.

Lemma write_level i L Fs ws w data :
  lv_ok Fs ws w -> nth_error Ls i = Some L -> zlen data = l_fb L -> zlen (nth i Fs []) + 1 < 2 ^ 32 ->
  exists a a' w', nth_error ws i = Some a /\ write_frame E data (a, w) = ((a', w'), Ok (l_fb L))
    /\ lv_ok (upd Fs i (nth i Fs [] ++ [data])) (upd ws i a') w' /\ extends (lev_ev v3 root bk m L) w w'.
Proof.
  intros (A & B & C) Hi Hd Hl. destruct (C i L Hi) as (a & Ha & I). destruct (Hlev i L Hi) as [H1 H2].
  destruct (winv_write E HE v3 root bk m Hroot Hplain Hbucket L _ a w data H1 I Hd Hl) as (a' & w' & R & I' & X).
  exists a, a', w'. split; auto. split; auto. split; auto. assert (Hin := nth_error_lt i L Hi).
  split; [rewrite upd_length; auto|]. split; [rewrite upd_length; auto|].
  intros j L' Hj. rewrite nth_error_upd by (rewrite A; auto). rewrite nth_upd by (rewrite B; auto).
  destruct (Nat.eqb_spec i j) as [->|Hne].
  - rewrite Hi in Hj. injection Hj as <-. eauto.
  - destruct (C j L' Hj) as (b & Hb & J). exists b. split; auto. destruct (Hlev j L' Hj) as [H3 H4].
    apply (winv_ext E v3 root bk m L' _ b w w' _ H3 X); auto.
    + intros e p He Hp. exact (lev_ev_other i j L L' e p Hne Hi Hj He Hp).
    + eapply wready_lev; [exact Hi|exact X|]. exact (winv_ready E v3 root bk m L' _ b w H3 J).
Qed.

(** ** The pyramid of frames *)
(** level i, computed from the frames of level i - 1 *)
Definition dims_at (i : nat) : Z * Z :=
  match nth_error Ls i with Some L => (d_array (l_dx L), d_array (l_dy L)) | None => (0, 0) end.
Definition down (i : nat) (src : list Z) : list Z := scaled dt (fst (dims_at (i - 1))) (snd (dims_at (i - 1))) src.
Definition mean (a b : list Z) : list Z := pixels_bytes dt bpp (average_two dt a b).
Definition up (i : nat) : list (list Z) -> list (list Z) := pairs (down i) mean.
Definition pn (i : nat) : list (list Z) -> option (list Z) := pend (down i).

(** levels j > i are in step with the level below *)
Definition synced (i : nat) (Fs : list (list (list Z))) (sc : list (option (list Z))) : Prop :=
  List.length sc = n /\
  forall j, (i < j < n)%nat -> nth j Fs [] = up j (nth (j - 1) Fs []) /\ nth j sc None = pn j (nth (j - 1) Fs []).

Lemma nth_error_ex i : (i < n)%nat -> exists L, nth_error Ls i = Some L.
Proof. intros H. destruct (nth_error Ls i) eqn:X; eauto. apply nth_error_None in X. unfold n in H. lia. Qed.

Lemma bpp_all i : forall L, nth_error Ls i = Some L -> l_bpp L = bpp.
Proof.
  induction i as [|i IH]; intros L H.
  - cbn in H. injection H as <-. reflexivity.
  - destruct (nth_error_ex i) as [K HK]; [apply nth_error_lt in H; lia|].
    destruct (Hstep i K L HK H) as (-> & _). auto.
Qed.
Lemma mean_len i L K a b : (1 <= i)%nat -> nth_error Ls (i - 1) = Some K -> nth_error Ls i = Some L -> zlen (mean (down i a) b) = l_fb L.
Proof.
  intros Hi HK HL. replace i with (S (i - 1)) in HL at 1 by lia. destruct (Hstep _ _ _ HK HL) as (B & Y & X & (S1 & S2 & _) & _).
  unfold mean, zlen. rewrite pixels_bytes_length by exact Hdt. rewrite average_length. unfold down, dims_at. rewrite HK. cbn [fst snd].
  rewrite scaled_length. unfold l_fb. rewrite X, Y, B. rewrite (bpp_all _ _ HK).
  pose proof (half_pos (d_array (l_dx K))). pose proof (half_pos (d_array (l_dy K))).
  assert (0 <= bpp). { rewrite <- (bpp_all _ _ HK). destruct (Hlev _ _ HK) as [[] _]. destruct lo_f. lia. }
  rewrite !Nat2Z.inj_mul, !Z2Nat.id by lia. lia.
Qed.

(** the images of levels 1 .. n - 2 are never freed *)
Definition leaksum (Fs : list (list (list Z))) : Z := fold_right Z.add 0 (map (fun j => zlen (nth j Fs [])) (seq 1 (n - 2))).
Lemma sum_upd (f g : nat -> Z) i k : forall l, NoDup l -> (forall j, j <> i -> g j = f j) -> g i = f i + k ->
  fold_right Z.add 0 (map g l) = fold_right Z.add 0 (map f l) + (if existsb (Nat.eqb i) l then k else 0).
Proof.
  induction l as [|a l IH]; intros ND H1 H2; cbn; [lia|]. inversion ND as [|? ? Na ND']; subst. rewrite IH by auto.
  destruct (Nat.eqb_spec i a) as [->|Hne].
  - cbn. rewrite H2. assert (X : existsb (Nat.eqb a) l = false).
    { destruct (existsb (Nat.eqb a) l) eqn:X; auto. apply existsb_exists in X as (x & Hx & Ex). apply Nat.eqb_eq in Ex. subst. contradiction. }
    rewrite X. lia.
  - cbn. rewrite (H1 a) by congruence. lia.
Qed.
Lemma leaksum_upd Fs i x : (1 <= i)%nat -> (i < List.length Fs)%nat ->
  leaksum (upd Fs i (nth i Fs [] ++ [x])) = leaksum Fs + (if Nat.ltb (S i) n then 1 else 0).
Proof.
  intros H1 H2. unfold leaksum. rewrite (sum_upd (fun j => zlen (nth j Fs [])) _ i 1); [|apply seq_NoDup| |].
  - f_equal. destruct (Nat.ltb_spec (S i) n); destruct (existsb (Nat.eqb i) (seq 1 (n - 2))) eqn:X; auto.
    + exfalso. assert (existsb (Nat.eqb i) (seq 1 (n - 2)) = true); [|congruence]. apply existsb_exists. exists i. split; [apply in_seq; lia|apply Nat.eqb_refl].
    + exfalso. apply existsb_exists in X as (y & Hy & Ey). apply Nat.eqb_eq in Ey. apply in_seq in Hy. lia.
  - intros j Hj. rewrite nth_upd by auto. destruct (Nat.eqb_spec i j); [congruence|reflexivity].
  - rewrite nth_upd by auto. rewrite Nat.eqb_refl. unfold zlen. rewrite app_length. cbn [List.length]. lia.
Qed.
Lemma leaksum_0 Fs x : (0 < List.length Fs)%nat -> leaksum (upd Fs 0 x) = leaksum Fs.
Proof.
  intros H. unfold leaksum. f_equal. apply map_ext_in. intros j Hj. apply in_seq in Hj. rewrite nth_upd by auto. destruct (Nat.eqb_spec 0 j); [lia|reflexivity].
Qed.

Definition same_but (s s' : stream) (ws : list writer) (sc : list (option (list Z))) : Prop :=
  s' = set_scaled (set_writers s ws) sc (s_leaked s').

Lemma slice_all d k : k = zlen d -> slice d 0 k = d.
Proof. intros ->. unfold slice, zlen. cbn [skipn]. change (Z.to_nat 0) with O. cbn [skipn]. rewrite Nat2Z.id. apply firstn_all. Qed.

Lemma multiscale_loop_ok : forall fuel i s w Fs G data K,
  (i + fuel = n)%nat -> (1 <= i)%nat -> s_dtype s = dt -> nth_error Ls (i - 1) = Some K ->
  lv_ok Fs (s_writers s) w -> zlen (nth (i - 1) Fs []) < 2 ^ 32 ->
  synced i Fs (s_scaled s) ->
  nth (i - 1) Fs [] = G ++ [data] -> ((i < n)%nat -> nth i Fs [] = up i G /\ nth i (s_scaled s) None = pn i G) ->
  zlen data = l_fb K ->
  exists s' w' Fs',
    multiscale_loop E bpp fuel i data (l_fb K) (d_array (l_dx K)) (d_array (l_dy K)) (s, w) = ((s', w'), Ok tt)
    /\ same_but s s' (s_writers s') (s_scaled s') /\ lv_ok Fs' (s_writers s') w' /\ extends st_ev w w'
    /\ synced (i - 1) Fs' (s_scaled s') /\ (forall j, (j < i)%nat -> nth j Fs' [] = nth j Fs [] /\ nth j (s_scaled s') None = nth j (s_scaled s) None)
    /\ s_leaked s' - leaksum Fs' = s_leaked s - leaksum Fs.
Proof.
  induction fuel as [|fuel IH]; intros i s w Fs G data K Hn Hi Hsdt HK Hlv Hlen Hsy HG Hcur Hd.
  - exists s, w, Fs. split; [reflexivity|]. split; [destruct s; reflexivity|]. split; auto. split; [apply extends_refl|]. split; [|split; auto].
    destruct Hsy as [Hs1 Hs2]. split; auto. intros j Hj. lia.
  - destruct (nth_error_ex i) as [L HL]; [lia|]. destruct Hcur as [Hc1 Hc2]; [lia|].
    assert (HL' : nth_error Ls (S (i - 1)) = Some L) by (replace (S (i - 1)) with i by lia; exact HL).
    destruct (Hstep _ _ _ HK HL') as (B & Y & X & S1 & S2). assert (Bb := bpp_all _ _ HK).
    cbn [multiscale_loop]. unfold bind at 1, getT. cbn [fst]. rewrite Hsdt.
    assert (SI : scale_image dt bpp data (l_fb K) (d_array (l_dx K)) (d_array (l_dy K))
       = Ok (down i data, l_fb L, d_array (l_dx L), d_array (l_dy L))).
    { rewrite <- Bb. rewrite scale_image_ok; auto; [|unfold l_fb; lia]. unfold down, dims_at. rewrite HK. cbn [fst snd]. unfold l_fb. rewrite X, Y, B.
      do 3 f_equal. f_equal. lia. }
    rewrite SI. unfold bind at 1, liftM. destruct Hsy as [Hs1 Hs2]. cbv beta iota.
    assert (Hin : (i < List.length (s_scaled s))%nat) by (rewrite Hs1; lia).
    rewrite Hc2. destruct (pn i G) as [p|] eqn:Ep.
    + destruct (pairs_some (down i) mean G data p Ep) as [P1 P2].
      assert (ML : zlen (mean (down i data) p) = l_fb L) by (eapply mean_len; eauto).
      assert (GL : (List.length G < List.length (G ++ [data]))%nat) by (rewrite app_length; cbn; lia).
      assert (UL : zlen (nth i Fs []) + 1 < 2 ^ 32).
      { rewrite Hc1. rewrite HG in Hlen. unfold up, zlen in *. rewrite pairs_length. pose proof (div2_le (List.length G)). lia. }
      destruct (write_level i L Fs (s_writers s) w (mean (down i data) p) Hlv HL ML UL) as (a & a' & w1 & Ha & R & Hlv' & X1).
      set (k := s_leaked s + (if Nat.ltb (S i) (List.length (s_writers s)) then 1 else 0)).
      set (s1 := set_scaled (set_writers s (upd (s_writers s) i a')) (upd (s_scaled s) i None)
           (s_leaked s + (if Nat.ltb (S i) (List.length (upd (s_writers s) i a')) then 1 else 0))).
      destruct Hlv as (Hw1 & Hw2 & Hw3).
      set (Fs1 := upd Fs i (nth i Fs [] ++ [mean (down i data) p])).
      assert (F1 : forall j, nth j Fs1 [] = if Nat.eqb i j then nth i Fs [] ++ [mean (down i data) p] else nth j Fs []).
      { intros j. unfold Fs1. apply nth_upd. lia. }
      assert (Q1 : nth (S i - 1) Fs1 [] = up i G ++ [mean (down i data) p]).
      { replace (S i - 1)%nat with i by lia. rewrite F1, Nat.eqb_refl, Hc1. reflexivity. }
      destruct (IH (S i) s1 w1 Fs1 (up i G) (mean (down i data) p) L) as (s' & w' & Fs' & R' & SB & LV & XX & SY & OLD & LK); auto; try lia.
      * replace (S i - 1)%nat with i by lia. exact HL.
      * rewrite Q1. unfold zlen in *. rewrite app_length. cbn [List.length]. rewrite Hc1 in UL. lia.
      * split; [unfold s1; cbn; rewrite upd_length; auto|]. intros j Hj. rewrite !F1.
        destruct (Nat.eqb_spec i j); [lia|]. destruct (Nat.eqb_spec i (j - 1)); [lia|].
        unfold s1. cbn [s_scaled set_scaled]. rewrite nth_upd by auto. destruct (Nat.eqb_spec i j); [lia|]. apply Hs2. lia.
      * intros Hlt. rewrite F1. destruct (Nat.eqb_spec i (S i)); [lia|]. unfold s1. cbn [s_scaled set_scaled]. rewrite nth_upd by auto.
        destruct (Nat.eqb_spec i (S i)); [lia|]. rewrite <- Hc1. destruct (Hs2 (S i) ltac:(lia)) as [Z1 Z2].
        replace (S i - 1)%nat with i in Z1, Z2 by lia. auto.
      * exists s', w', Fs'. split; [|split; [|split; [|split; [|split; [|split]]]]]; auto.
        -- change (pixels_bytes dt bpp (average_two dt (down i data) p)) with (mean (down i data) p).
           rewrite (slice_all _ _ (eq_sym ML)).
           change (pixels_bytes dt bpp (average_two dt (down i data) p)) with (mean (down i data) p).
           erewrite bind_ok; [|unfold on_writer; rewrite Ha, R; reflexivity].
           assert (Z1 : l_fb L <> 0).
           { destruct (Hlev _ _ HL) as [H0 _]. destruct (lo_f _ _ _ _ _ _ H0) as [q1 _ q2 _ _ _ _ _].
             apply Forall_app in q2 as [_ q2]. inversion q2 as [|? ? (u1 & _) q3]; subst. inversion q3 as [|? ? (u2 & _) _]; subst.
             unfold l_fb. assert (0 < d_array (l_dy L) * d_array (l_dx L)) by (apply Z.mul_pos_pos; lia).
             assert (0 < d_array (l_dy L) * d_array (l_dx L) * l_bpp L) by (apply Z.mul_pos_pos; lia). lia. }
           replace (l_fb L =? 0) with false by (symmetry; apply Z.eqb_neq; exact Z1). cbn [negb expectM].
           unfold bind at 1, ret at 1. unfold bind at 1, modT. cbn [fst snd]. rewrite Hsdt || idtac. exact R'.
        -- eapply extends_trans; [eapply extends_impl; [|exact X1]|exact XX]. intros e. apply (lev_ev_st i L e HL).
        -- destruct SY as [SY1 SY2]. split; auto. intros j Hj.
           destruct (Nat.eq_dec j i) as [->|Hne].
           ++ destruct (OLD i ltac:(lia)) as [O1 O2]. destruct (OLD (i - 1)%nat ltac:(lia)) as [O3 O4].
              rewrite O1, O2, O3, !F1, Nat.eqb_refl. destruct (Nat.eqb_spec i (i - 1)); [lia|]. rewrite HG, Hc1.
              unfold up, pn. rewrite P1, P2. split; auto. unfold s1. cbn [s_scaled set_scaled]. rewrite nth_upd by auto. rewrite Nat.eqb_refl. reflexivity.
           ++ apply SY2. lia.
        -- intros j Hj. destruct (OLD j ltac:(lia)) as [O1 O2]. rewrite O1, O2, F1. destruct (Nat.eqb_spec i j); [lia|].
           unfold s1. cbn [s_scaled set_scaled]. rewrite nth_upd by auto. destruct (Nat.eqb_spec i j); [lia|auto].
        -- rewrite LK. unfold Fs1, s1. cbn [s_leaked set_scaled]. rewrite leaksum_upd by (auto; rewrite Hw2; lia). rewrite upd_length, Hw1. lia.
    + destruct (pairs_none (down i) mean G data Ep) as [P1 P2].
      exists (set_scaled s (upd (s_scaled s) i (Some (down i data))) (s_leaked s)), w, Fs.
      split; [reflexivity|]. split; [destruct s; reflexivity|]. split; auto. split; [apply extends_refl|]. split; [|split; [|reflexivity]].
      * split; [cbn; rewrite upd_length; auto|]. intros j Hj. cbn [s_scaled set_scaled]. rewrite nth_upd by auto.
        destruct (Nat.eqb_spec i j) as [<-|Hne]; [|apply Hs2; lia].
        rewrite HG, Hc1. unfold up, pn. rewrite P1, P2. auto.
      * intros j Hj. split; auto. cbn [s_scaled set_scaled]. rewrite nth_upd by auto. destruct (Nat.eqb_spec i j); [lia|auto].
Qed.

(** ** The stream between two calls *)
Record sinv (Fs : list (list (list Z))) (docs : list (string * list Z)) (s : stream) (w : world) : Prop := {
  si_v3 : s_v3 s = v3; si_root : s_root s = root; si_bk : s_bucket s = bk; si_dt : s_dtype s = dt;
  si_dims : s_dims s = l_ds L0; si_multi : s_multi s = false -> Lr = [];
  si_off : s_foff s = 0; si_buf : zlen (s_fbuf s) = l_fb L0; si_err : w_err w = "";
  si_lv : lv_ok Fs (s_writers s) w;
  si_sync : s_multi s = true -> synced 0 Fs (s_scaled s);
  si_leak : s_leaked s = leaksum Fs;
  si_ms : msinks_hold E root bk w (s_msinks s) docs;
  si_keys : map fst docs = mnames v3 }.

Lemma fb_pos i L : nth_error Ls i = Some L -> 0 < l_fb L.
Proof.
  intros HL. destruct (Hlev _ _ HL) as [H0 _]. destruct (lo_f _ _ _ _ _ _ H0) as [q1 _ q2 _ _ _ _ _].
  apply Forall_app in q2 as [_ q2]. inversion q2 as [|? ? (u1 & _) q3]; subst. inversion q3 as [|? ? (u2 & _) _]; subst.
  unfold l_fb. apply Z.mul_pos_pos; [apply Z.mul_pos_pos|]; lia.
Qed.

Lemma width_l L : width_dim (l_ds L) = l_dx L.
Proof. apply DimProofs.width_dim_eq. Qed.
Lemma height_l L : height_dim (l_ds L) = l_dy L.
Proof. apply DimProofs.height_dim_eq. Qed.

Lemma st_ev_kloc k e : st_ev e -> In k (mnames v3) -> ~ affects (kloc root bk k) e.
Proof. intros (i & L & _ & He) Hk. eapply lev_ev_kloc; eauto. Qed.

Lemma sinv_step Fs Fs' docs s s' w w' :
  sinv Fs docs s w -> extends st_ev w w' -> same_but s s' (s_writers s') (s_scaled s') ->
  lv_ok Fs' (s_writers s') w' -> (s_multi s = true -> synced 0 Fs' (s_scaled s')) ->
  s_leaked s' - leaksum Fs' = s_leaked s - leaksum Fs -> sinv Fs' docs s' w'.
Proof.
  intros [] X SB LV SY LK. unfold same_but in SB.
  constructor; auto; try (rewrite SB; assumption).
  - destruct X as (evs & _ & _ & _ & ->). auto.
  - lia.
  - assert (Em : s_msinks s' = s_msinks s) by (rewrite SB; reflexivity). rewrite Em.
    eapply msinks_hold_ext; [exact X| |exact si_ms0]. intros e k He Hk. rewrite si_keys0 in Hk. eapply st_ev_kloc; eauto.
Qed.

Lemma append_frame Fs docs s w data :
  sinv Fs docs s w -> zlen data = l_fb L0 -> zlen (nth 0 Fs []) + 1 < 2 ^ 32 ->
  exists s1 w1 s' w' Fs',
    on_writer 0 (write_frame E data) (s, w) = ((s1, w1), Ok (l_fb L0)) /\
    write_multiscale E data (l_fb L0) (s1, w1) = ((s', w'), Ok tt) /\
    sinv Fs' docs s' w' /\ nth 0 Fs' [] = nth 0 Fs [] ++ [data] /\ extends st_ev w w'.
Proof.
  intros I Hd Hl. assert (H0 : nth_error Ls 0 = Some L0) by reflexivity.
  destruct (write_level 0 L0 Fs (s_writers s) w data (si_lv _ _ _ _ I) H0 Hd Hl) as (a & a' & w1 & Ha & R & LV & X).
  set (Fs1 := upd Fs 0 (nth 0 Fs [] ++ [data])) in *.
  set (s1 := set_writers s (upd (s_writers s) 0 a')).
  assert (X1 : extends st_ev w w1) by (eapply extends_impl; [intros e; apply (lev_ev_st 0 L0 e H0)|exact X]).
  assert (Hlen : (0 < List.length Fs)%nat). { destruct (si_lv _ _ _ _ I) as (_ & -> & _). unfold n, Ls. cbn. lia. }
  assert (F1 : forall j, nth j Fs1 [] = if Nat.eqb 0 j then nth 0 Fs [] ++ [data] else nth j Fs []).
  { intros j. unfold Fs1. apply nth_upd. exact Hlen. }
  exists s1, w1. assert (Hon : on_writer 0 (write_frame E data) (s, w) = ((s1, w1), Ok (l_fb L0))).
  { unfold on_writer. rewrite Ha, R. reflexivity. }
  destruct (s_multi s) eqn:M.
  - assert (SY := si_sync _ _ _ _ I M). destruct SY as [SY1 SY2].
    destruct (multiscale_loop_ok (n - 1) 1 s1 w1 Fs1 (nth 0 Fs []) data L0) as (s' & w' & Fs' & R' & SB & LV' & X' & SY' & OLD & LK); auto.
    + unfold n, Ls. cbn. lia.
    + exact (si_dt _ _ _ _ I).
    + change (1 - 1)%nat with 0%nat. rewrite F1. cbn [Nat.eqb]. unfold zlen in *. rewrite app_length. cbn [List.length]. lia.
    + split; auto. intros j Hj. rewrite !F1. destruct (Nat.eqb_spec 0 j); [lia|]. destruct (Nat.eqb_spec 0 (j - 1)); [lia|]. apply SY2. lia.
    + change (1 - 1)%nat with 0%nat. rewrite F1. reflexivity.
    + intros Hn. rewrite F1. cbn [Nat.eqb]. apply (SY2 1%nat). lia.
    + exists s', w', Fs'. split; auto. split; [|split; [|split]].
      * unfold write_multiscale. unfold bind at 1, getT. cbn [fst]. unfold s1 at 1. cbn [s_multi set_writers]. rewrite M.
        change (s_dtype s1) with (s_dtype s). rewrite (si_dt _ _ _ _ I).
        replace (dt_count <=? dt) with false by (symmetry; apply Z.leb_gt; lia).
        rewrite Hdt. unfold bind at 1, liftM.
        destruct LV as (LV1 & _). change (s_writers s1) with (upd (s_writers s) 0 a'). rewrite LV1.
        change (s_dims s1) with (s_dims s). rewrite (si_dims _ _ _ _ I), width_l, height_l. exact R'.
      * eapply sinv_step; [exact I|eapply extends_trans; [exact X1|exact X']|exact SB|exact LV'|intros _; exact SY'|]. rewrite LK. unfold Fs1. rewrite leaksum_0 by exact Hlen. reflexivity.
      * destruct (OLD 0%nat ltac:(lia)) as [-> _]. rewrite F1. reflexivity.
      * eapply extends_trans; eauto.
  - exists s1, w1, Fs1. split; auto. split; [|split; [|split]]; auto.
    + unfold write_multiscale. unfold bind at 1, getT. cbn [fst]. unfold s1 at 1. cbn [s_multi set_writers]. rewrite M. reflexivity.
    + eapply sinv_step; [exact I|exact X1| |exact LV|congruence|].
      * unfold s1. destruct s; reflexivity.
      * unfold Fs1. rewrite leaksum_0 by exact Hlen. reflexivity.
    + rewrite F1. reflexivity.
Qed.

Lemma slice_mid (a b c : list Z) : slice (a ++ b ++ c) (zlen a) (zlen b) = b.
Proof.
  unfold slice, zlen. rewrite !Nat2Z.id, skipn_app, skipn_all, Nat.sub_diag. cbn [app skipn].
  rewrite firstn_app, Nat.sub_diag, firstn_all. cbn [firstn]. apply app_nil_r.
Qed.
Lemma zlen_app {A} (a b : list A) : zlen (a ++ b) = zlen a + zlen b.
Proof. unfold zlen. rewrite app_length. lia. Qed.

Lemma append_loop_ok post : forall fuel pre Fs docs s w data,
  sinv Fs docs s w -> data = pre ++ List.concat post -> Forall (fun f => zlen f = l_fb L0) post ->
  (List.length post < fuel)%nat -> zlen (nth 0 Fs []) + zlen post < 2 ^ 32 ->
  exists s' w' Fs', append_loop E fuel data (zlen pre) (zlen pre) (s, w) = ((s', w'), Ok (zlen data)) /\
    sinv Fs' docs s' w' /\ nth 0 Fs' [] = nth 0 Fs [] ++ post /\ extends st_ev w w'.
Proof.
  induction post as [|f post IH]; intros fuel pre Fs docs s w data I Hdata Hf Hfuel Hl.
  - destruct fuel as [|fuel]; [cbn in Hfuel; lia|]. cbn [List.concat] in Hdata. rewrite app_nil_r in Hdata. subst data.
    exists s, w, Fs. split; [|split; [|split]]; auto using app_nil_r, extends_refl.
    cbn [append_loop]. rewrite Z.ltb_irrefl. reflexivity.
  - destruct fuel as [|fuel]; [cbn in Hfuel; lia|]. inversion Hf as [|? ? Hf1 Hf2]; subst.
    assert (Fp := fb_pos 0 L0 eq_refl).
    assert (Z1 : zlen (pre ++ List.concat (f :: post)) = zlen pre + l_fb L0 + zlen (List.concat post)).
    { cbn [List.concat]. rewrite !zlen_app. lia. }
    pose proof (zlen_nonneg (List.concat post)). pose proof (zlen_nonneg post).
    assert (Z2 : zlen (f :: post) = 1 + zlen post) by (unfold zlen; cbn [List.length]; lia).
    destruct (append_frame Fs docs s w f I Hf1 ltac:(lia)) as (s1 & w1 & s2 & w2 & Fs2 & R1 & R2 & I2 & N2 & X2).
    destruct (IH fuel (pre ++ f) Fs2 docs s2 w2 (pre ++ List.concat (f :: post))) as (s' & w' & Fs' & R' & I' & N' & X'); auto.
    + cbn [List.concat]. rewrite <- app_assoc. reflexivity.
    + cbn [List.length] in Hfuel. lia.
    + rewrite N2, zlen_app. change (zlen [f]) with 1. lia.
    + exists s', w', Fs'. split; [|split; [|split]]; auto.
      * cbn [append_loop]. replace (zlen pre <? zlen (pre ++ List.concat (f :: post))) with true by (symmetry; apply Z.ltb_lt; lia).
        unfold bind at 1, getT. cbn [fst]. rewrite (si_off _ _ _ _ I), (si_buf _ _ _ _ I). cbn [Z.ltb Z.compare].
        replace (zlen (pre ++ List.concat (f :: post)) - zlen pre <? l_fb L0) with false by (symmetry; apply Z.ltb_ge; lia).
        replace (zlen (pre ++ List.concat (f :: post)) <? zlen pre + l_fb L0) with false by (symmetry; apply Z.ltb_ge; lia).
        assert (SL : slice (pre ++ List.concat (f :: post)) (zlen pre) (l_fb L0) = f).
        { cbn [List.concat]. rewrite <- Hf1. apply slice_mid. }
        rewrite SL. erewrite bind_ok by exact R1. replace (l_fb L0 =? 0) with false by (symmetry; apply Z.eqb_neq; lia).
        erewrite bind_ok by exact R2. rewrite zlen_app, Hf1 in R'. exact R'.
      * rewrite N', N2, <- app_assoc. reflexivity.
      * eapply extends_trans; eauto.
Qed.

Lemma concat_len (post : list (list Z)) k : 0 < k -> Forall (fun f => zlen f = k) post -> (List.length post <= List.length (List.concat post))%nat.
Proof.
  intros Hk H. induction H as [|f l Hf _ IH]; cbn; [lia|]. rewrite app_length. unfold zlen in Hf. lia.
Qed.

Lemma append_ok frames Fs docs s w :
  sinv Fs docs s w -> Forall (fun f => zlen f = l_fb L0) frames -> zlen (nth 0 Fs []) + zlen frames < 2 ^ 32 ->
  exists s' w' Fs', append E (List.concat frames) (s, w) = ((s', w'), Ok (zlen (List.concat frames))) /\
    sinv Fs' docs s' w' /\ nth 0 Fs' [] = nth 0 Fs [] ++ frames /\ extends st_ev w w'.
Proof.
  intros I Hf Hl. assert (Fp := fb_pos 0 L0 eq_refl). pose proof (concat_len frames _ Fp Hf) as CL.
  destruct (append_loop_ok frames (S (List.length (List.concat frames))) [] Fs docs s w (List.concat frames) I eq_refl Hf ltac:(lia) Hl) as (s' & w' & Fs' & R & I' & N & X).
  exists s', w', Fs'. split; [|split; [|split]]; auto. unfold append. unfold bind at 1, onT, getM. cbn [fst snd].
  rewrite (si_err _ _ _ _ I). exact R.
Qed.


(** ** Closing *)
Definition all_ev (e : event) : Prop := st_ev e \/ meta_ev root bk (mnames v3) e.

Lemma upd_same {A} (l : list A) i a : nth_error l i = Some a -> upd l i a = l.
Proof.
  revert i. induction l as [|x l IH]; intros [|i] H; cbn in H; try discriminate.
  - injection H as ->. reflexivity.
  - rewrite upd_S. f_equal. auto.
Qed.

Lemma finalize_levels todo : forall i Fs s w,
  (i + todo = n)%nat -> List.length (s_writers s) = n ->
  (forall j L, (i <= j)%nat -> nth_error Ls j = Some L -> exists a, nth_error (s_writers s) j = Some a /\ winv E v3 L (nth j Fs []) a w) ->
  (forall j L, (j < i)%nat -> nth_error Ls j = Some L -> final E v3 bk L (nth j Fs []) (w_trace w)) ->
  exists s' w', all_ok (fun i => on_writer i (finalize_array E)) (seq i todo) (s, w) = ((s', w'), Ok true) /\ extends st_ev w w' /\
    (forall j L, nth_error Ls j = Some L -> final E v3 bk L (nth j Fs []) (w_trace w')).
Proof.
  induction todo as [|todo IH]; intros i Fs s w Hn Hlen Hw Hf.
  - exists s, w. split; [reflexivity|]. split; [apply extends_refl|]. intros j L Hj. apply Hf; auto. apply nth_error_lt in Hj. lia.
  - destruct (nth_error_ex i) as [L HL]; [lia|]. destruct (Hw i L (Nat.le_refl i) HL) as (a & Ha & I). destruct (Hlev i L HL) as [H1 H2].
    destruct (winv_finalize E HE v3 root bk m Hroot Hplain Hbucket L _ a w H1 I) as (a' & w1 & R & X & Fin).
    assert (X1 : extends st_ev w w1) by (eapply extends_impl; [intros e; apply (lev_ev_st i L e HL)|exact X]).
    destruct (IH (S i) Fs (set_writers s (upd (s_writers s) i a')) w1) as (s' & w' & R' & X' & Fin'); auto.
    + lia.
    + cbn. rewrite upd_length. auto.
    + intros j L' Hj HL'. destruct (Hw j L' ltac:(lia) HL') as (b & Hb & J). exists b. cbn [s_writers set_writers].
      rewrite nth_error_upd by lia. destruct (Nat.eqb_spec i j); [lia|]. split; auto. destruct (Hlev j L' HL') as [H3 H4].
      apply (winv_ext E v3 root bk m L' _ b w w1 _ H3 X); auto.
      * intros e p He Hp. apply (lev_ev_other i j L L' e p); auto.
      * eapply wready_lev; [exact HL|exact X|]. exact (winv_ready E v3 root bk m L' _ b w H3 J).
    + intros j L' Hj HL'. destruct (Nat.eq_dec j i) as [->|Hne].
      * rewrite HL in HL'. injection HL' as <-. exact Fin.
      * destruct (Hlev j L' HL') as [H3 H4]. apply (final_ext E v3 root bk m L' _ w w1 _ H3 X); [|apply Hf; auto; lia].
        intros e p He Hp. apply (lev_ev_other i j L L' e p); auto.
    + exists s', w'. split; [|split]; auto.
      * cbn [seq all_ok]. erewrite bind_ok; [|unfold on_writer; rewrite Ha, R; reflexivity]. exact R'.
      * eapply extends_trans; eauto.
Qed.

Lemma finalize_ok Fs docs s w gi :
  sinv Fs docs s w ->
  nth_error docs gi = Some (fst (group_metadata s), text (dump (snd (group_metadata s)))) ->
  Forall (fun kd => zlen (snd kd) < 2 ^ 64) docs ->
  (bk = None \/ zlen (text (dump (snd (group_metadata s)))) < part_size) ->
  exists s' w0 w', finalize_stream E (s, w) = ((s', w'), Ok true) /\
    (forall j L, nth_error Ls j = Some L -> final E v3 bk L (nth j Fs []) (w_trace w')) /\
    Forall (doc_stored E root bk (w_trace w0) (w_trace w')) docs /\ extends all_ev w w'.
Proof.
  intros I Hg Hz Hp. assert (ND : NoDup (map fst docs)) by (rewrite (si_keys _ _ _ _ I); apply mnames_nodup).
  set (gk := fst (group_metadata s)) in *. set (gd := text (dump (snd (group_metadata s)))) in *.
  destruct (write_metadata_ok E HE root bk s w docs gi gk gd gd "Error writing group metadata" (si_ms _ _ _ _ I) ND Hg) as (ms & w1 & R1 & X1 & M1).
  { right. split; [lia|auto]. }
  rewrite (upd_same _ _ _ Hg) in M1.
  destruct (finalize_msinks_ok E HE root bk Hplain Hbucket docs (set_msinks s ms) w1 w1 M1 ND Hz eq_refl) as (ms2 & w2 & R2 & X2 & D2).
  set (s2 := set_msinks (set_msinks s ms) ms2) in *.
  assert (Hgk : In gk (mnames v3)). { rewrite <- (si_keys _ _ _ _ I). apply nth_error_In in Hg. apply (in_map fst) in Hg. exact Hg. }
  assert (Y1 : extends (meta_ev root bk (mnames v3)) w w1).
  { eapply extends_impl; [|exact X1]. intros e He. right. exists gk. auto. }
  assert (Y2 : extends (meta_ev root bk (mnames v3)) w1 w2) by (rewrite (si_keys _ _ _ _ I) in X2; exact X2).
  assert (LV : lv_ok Fs (s_writers s) w2).
  { eapply lv_meta; [exact Y2|]. eapply lv_meta; [exact Y1|]. exact (si_lv _ _ _ _ I). }
  destruct LV as (LV1 & LV2 & LV3).
  destruct (finalize_levels n 0 Fs (set_msinks s2 []) w2) as (s3 & w3 & R3 & X3 & F3); auto; [intros; lia|].
  exists (set_writers s3 []), w1, w3. split; [|split; [|split]]; auto.
  - unfold finalize_stream. rewrite (bind_ok _ _ _ (set_msinks s ms, w1) true).
    2:{ unfold write_group_metadata. unfold bind at 1, getT. cbn [fst]. unfold gk, gd in R1. destruct (group_metadata s) as [key j]. exact R1. }
    cbv beta iota. unfold bind at 1, getT. cbn [fst]. rewrite (bind_ok _ _ _ (s2, w2) true) by exact R2. cbv beta iota.
    unfold bind at 1, modT. cbn [fst snd]. unfold bind at 1, getT. cbn [fst]. cbn [s_writers set_msinks s2]. rewrite LV1.
    rewrite (bind_ok _ _ _ (s3, w3) true) by exact R3. reflexivity.
  - apply Forall_forall. intros kd Hin. rewrite Forall_forall in D2. eapply doc_stored_frame; [exact X3| |apply D2; exact Hin].
    intros e He. eapply st_ev_kloc; [exact He|]. rewrite <- (si_keys _ _ _ _ I). apply in_map. exact Hin.
  - eapply extends_trans; [|eapply extends_impl; [|exact X3]; left; auto].
    eapply extends_trans; eapply extends_impl; [| exact Y1| |exact Y2]; right; auto.
Qed.


(** ** Opening *)

(** on a real disk a file lies in directories *)
Definition tree (w : world) : Prop :=
  forall d p, under d p = true -> d <> p -> file_of E (w_trace w) p <> None -> d <> "" -> dir_of E (w_trace w) d = true.

Lemma file_of_snoc tr e p : file_of E (tr ++ [e]) p = file_step p (file_of E tr p) e.
Proof. unfold file_of. rewrite fold_left_app. reflexivity. Qed.
Lemma dir_of_rm tr p : dir_of E (tr ++ [ERemoveAll p]) p = false.
Proof. unfold dir_of. rewrite fold_left_app. cbn [fold_left dir_step]. rewrite under_refl. apply andb_false_r. Qed.

Lemma open_connections_ok k : forall w, exists w', open_connections E k w = (w', Ok tt) /\ w_trace w' = w_trace w /\ w_conns w' = (k + w_conns w)%nat /\ w_err w' = w_err w.
Proof.
  induction k as [|k IH]; intros w; [exists w; auto|]. cbn [open_connections].
  unfold s3_request. unfold bind at 1 2, next_tick. unfold ret at 1. cbn [fst snd].
  rewrite (calm_s3 E HE). unfold bind at 1, return_connection, modM.
  destruct (IH (mkworld (w_trace w) (S (w_tick w)) (S (w_conns w)) (w_err w))) as (w' & R & A & B & C).
  exists w'. split; [exact R|]. cbn in *. rewrite A, B, C. repeat split; auto; lia.
Qed.

Lemma create_store_ok s w :
  s_root s = root -> s_bucket s = bk -> w_err w = "" -> (bk = None -> tree w) -> (bk <> None -> e_conns E <> 0%nat) ->
  exists w', create_store E s w = (w', Ok true) /\ w_err w' = "" /\ (bk = None -> fresh E root w') /\ (bk <> None -> (0 < w_conns w')%nat) /\
    (bk <> None -> w_trace w' = w_trace w) /\ (forall p, under root p = false -> file_of E (w_trace w') p = file_of E (w_trace w) p) /\
    exists evs, w_trace w' = w_trace w ++ evs /\ Forall (fun e => is_mkdir e \/ e = ERemoveAll root) evs.
Proof.
  intros Hr Hb He Ht Hc. unfold create_store. rewrite Hb. destruct bk as [b|] eqn:Eb.
  - unfold bind at 1, modM. set (w0 := mkworld _ _ 0 _).
    destruct (open_connections_ok (e_conns E) w0) as (w1 & R & A & B & C). erewrite bind_ok by exact R.
    unfold bind at 1, getM. assert (NZ : e_conns E <> 0%nat) by (apply Hc; discriminate).
    cbn in B. replace (Nat.eqb (w_conns w1) 0) with false by (symmetry; apply Nat.eqb_neq; lia).
    unfold get_connection. unfold bind at 1. destruct (w_conns w1) as [|c] eqn:Ec; [lia|].
    unfold s3_request. unfold bind at 1 2, next_tick. unfold ret at 1. cbn [fst snd]. rewrite (calm_s3 E HE).
    unfold bind at 1, return_connection, modM, ret. eexists. split; [reflexivity|]. cbn in *. rewrite C, A. cbn.
    split; auto. split; [discriminate|]. split; [lia|]. split; auto. split; auto. exists []. rewrite app_nil_r. auto.
  - unfold bind at 1, fs_exists. rewrite (calm_stat E HE), Hr.
    assert (Rb : String.eqb root "" = false) by (apply String.eqb_neq; exact Hroot). rewrite Rb. cbn [negb andb].
    specialize (Ht eq_refl).
    destruct (dir_of E (w_trace w) root || match file_of E (w_trace w) root with Some _ => true | None => false end) eqn:Ex.
    + unfold fs_remove_all. unfold bind at 1 2, next_tick. rewrite (calm_fs E HE). unfold bind at 1, emit, modM, ret. cbn [w_trace w_tick w_conns w_err].
      unfold fs_create_directories. unfold bind at 1 2, getM. cbn [w_trace]. rewrite dir_of_rm, Rb. cbn [orb].
      unfold bind at 1, next_tick. rewrite (calm_fs E HE). cbn [w_trace w_tick w_conns w_err]. unfold bind at 1, emit, modM, ret. cbn [w_trace w_tick w_conns w_err].
      eexists. split; [reflexivity|]. cbn [w_trace w_err]. split; [auto|]. split.
      * intros _ p Hp. cbn [w_trace]. rewrite !file_of_snoc. cbn [file_step]. rewrite Hp. reflexivity.
      * split; [congruence|]. split; [congruence|]. split; [intros p Hp; rewrite !file_of_snoc; cbn [file_step]; rewrite Hp; reflexivity|].
        exists [ERemoveAll root; EMkdir root]. rewrite <- app_assoc. split; [reflexivity|]. constructor; [right; reflexivity|]. constructor; [left; exact I|constructor].
    + apply orb_false_iff in Ex as [X1 X2]. unfold ret at 1. unfold bind at 1.
      unfold fs_create_directories. unfold bind at 1 2, getM. rewrite X1, Rb. cbn [orb].
      unfold bind at 1, next_tick. rewrite (calm_fs E HE). cbn [w_trace w_tick w_conns w_err]. unfold bind at 1, emit, modM, ret. cbn [w_trace w_tick w_conns w_err].
      eexists. split; [reflexivity|]. cbn [w_trace w_err]. split; [auto|]. split.
      * intros _ p Hp. cbn [w_trace]. rewrite !file_of_snoc. cbn [file_step]. destruct (String.eqb_spec root p) as [<-|Hne].
        -- destruct (file_of E (w_trace w) root); congruence.
        -- destruct (file_of E (w_trace w) p) eqn:Ef; auto. exfalso. rewrite (Ht root p) in X1; auto; congruence.
      * split; [congruence|]. split; [congruence|]. split; [intros p Hp; rewrite !file_of_snoc; reflexivity|].
        exists [EMkdir root]. split; [reflexivity|]. constructor; [left; exact I|constructor].
Qed.

Lemma fresh_free w : fresh E root w -> free_dirs v3 root m E w.
Proof.
  intros H p (level & q & l & _ & _ & _ & _ & ->). apply H.
  destruct (data_comps v3 level q ++ map dec l) as [|c cs] eqn:Ec; [|apply under_join].
  cbn [join_path]. apply under_refl.
Qed.

Lemma lv_init ws w : Forall2 (fun L a => make_writer v3 (l_cfg L) = Ok a) Ls ws -> wready E v3 root bk m w -> (bk = None -> fresh E root w) ->
  lv_ok (repeat [] n) ws w.
Proof.
  intros H R Hfr. split; [|split].
  - clear -H. unfold n. induction H; cbn; auto.
  - apply repeat_length.
  - intros i L Hi. destruct (Hlev i L Hi) as [H1 H2]. destruct (winv_init E v3 root bk m L w H1 R) as (a & Ha & I).
    { intros Hb. unfold mloc. rewrite (lo_bk _ _ _ _ _ _ H1), (lo_root _ _ _ _ _ _ H1), Hb. cbn [mkloc content]. apply Hfr; [exact Hb|].
      unfold meta_comps. destruct v3; apply under_join. }
    assert (G : exists a', nth_error ws i = Some a' /\ make_writer v3 (l_cfg L) = Ok a').
    { clear -H Hi. revert i Hi. induction H as [|x y l l' Hxy _ IH]; intros [|i] Hi; cbn in *; try discriminate; eauto. injection Hi as <-. eauto. }
    destruct G as (a' & Ha' & Hm). exists a'. split; auto. rewrite Ha in Hm. injection Hm as <-.
    rewrite nth_repeat. exact I.
Qed.

Lemma synced_init : synced 0 (repeat [] n) (repeat None n).
Proof. split; [apply repeat_length|]. intros j Hj. rewrite !nth_repeat. auto. Qed.

Definition ext_doc (custom : string) : list Z := if String.eqb custom "" then [] else text (custom_text E custom).
Definition base_doc : list Z :=
  text (dump (if v3 then JObj [ ("extensions", JArr []);
                         ("metadata_encoding", JStr "https://purl.org/zarr/spec/protocol/core/3.0");
                         ("metadata_key_suffix", JStr ".json");
                         ("zarr_format", JStr "https://purl.org/zarr/spec/protocol/core/3.0") ]
              else JObj [ ("multiscales", multiscale_json (l_ds L0) n) ])).
Definition group_doc : list Z :=
  text (dump (if v3 then JObj [ ("attributes", JObj [ ("multiscales", multiscale_json (l_ds L0) n) ]) ] else JObj [ ("zarr_format", JInt 2) ])).
Definition docs_of (custom : string) : list (string * list Z) :=
  if v3 then [("zarr.json", base_doc); ("meta/root.group.json", group_doc); ("meta/acquire.json", ext_doc custom)]
  else [(".zattrs", base_doc); (".zgroup", group_doc); ("0/.zattrs", []); ("acquire.json", ext_doc custom)].


Definition docs_fit (custom : string) : Prop :=
  Forall (fun kd => zlen (snd kd) < 2 ^ 64) (docs_of custom) /\ (bk = None \/ zlen group_doc < part_size).

Lemma docs_keys custom : map fst (docs_of custom) = mnames v3.
Proof. unfold docs_of. destruct v3; reflexivity. Qed.

(** a stream as [commit] and the constructor leave it *)
Record opened (multi : bool) (custom : string) (s : stream) (ws : list writer) : Prop := {
  op_v3 : s_v3 s = v3; op_root : s_root s = root; op_bk : s_bucket s = bk; op_dt : s_dtype s = dt;
  op_dims : s_dims s = l_ds L0; op_multi : s_multi s = multi; op_custom : s_custom s = custom;
  op_off : s_foff s = 0; op_buf : zlen (s_fbuf s) = l_fb L0; op_ws : s_writers s = ws;
  op_sc : multi = true -> s_scaled s = repeat None n; op_leak : s_leaked s = 0 }.

Lemma opened_msinks multi custom s ws ms : opened multi custom s ws -> opened multi custom (set_msinks s ms) ws.
Proof. intros []. constructor; auto. Qed.

Lemma base_doc_ok multi custom s ws : opened multi custom s ws -> List.length ws = n ->
  base_metadata s = (if v3 then "zarr.json" else ".zattrs", snd (base_metadata s)) /\ text (dump (snd (base_metadata s))) = base_doc.
Proof.
  intros [] Hl. unfold base_metadata, base_doc. rewrite op_v4, op_dims0, op_ws0, Hl. destruct v3; auto.
Qed.
Lemma group_doc_ok s : s_v3 s = v3 -> s_dims s = l_ds L0 -> List.length (s_writers s) = n ->
  group_metadata s = (if v3 then "meta/root.group.json" else ".zgroup", snd (group_metadata s)) /\ text (dump (snd (group_metadata s))) = group_doc.
Proof.
  intros H1 H2 H3. unfold group_metadata, group_doc. rewrite H1, H2, H3. destruct v3; auto.
Qed.

Definition ext_i : nat := if v3 then 2%nat else 3%nat.

(** the constructor after create_writers_ *)
Lemma open_metadata_ok multi custom s ws w :
  opened multi custom s ws -> (multi = false -> Lr = []) ->
  Forall2 (fun L a => make_writer v3 (l_cfg L) = Ok a) Ls ws ->
  docs_fit custom -> w_err w = "" -> (bk = None -> fresh E root w) -> (bk <> None -> (0 < w_conns w)%nat) ->
  exists s' w',
    (ok <- create_metadata_sinks E ;;
     expectM ok "create_metadata_sinks_" ;;;
     ok <- write_base_metadata E ;;
     expectM ok "write_base_metadata_" ;;;
     ok <- write_group_metadata E ;;
     expectM ok "write_group_metadata_" ;;;
     ok <- write_external_metadata E ;;
     expectM ok "write_external_metadata_") (s, w) = ((s', w'), Ok tt) /\
    sinv (repeat [] n) (docs_of custom) s' w' /\ extends (meta_ev root bk (mnames v3)) w w'.
Proof.
  intros O Hm Hws [Hfit Hgrp] He Hfr Hc.
  assert (Hlen : List.length ws = n). { clear -Hws. unfold n. induction Hws; cbn; auto. }
  assert (RDY : wready E v3 root bk m w). { split; auto. intros B. apply fresh_free. auto. }
  destruct (create_metadata_sinks_ok E HE v3 root bk Hroot Hplain Hbucket s w (op_v3 _ _ _ _ O) (op_root _ _ _ _ O) (op_bk _ _ _ _ O) Hfr Hc) as (ms & w1 & R1 & X1 & M1).
  set (d0 := map (fun n => (n, @nil Z)) (mnames v3)) in *.
  assert (ND0 : map fst d0 = mnames v3). { unfold d0. rewrite map_map. cbn [fst]. apply map_id. }
  assert (O1 := opened_msinks _ _ _ _ ms O).
  destruct (base_doc_ok _ _ _ _ O1 Hlen) as [B1 B2].
  assert (FI : forall i kd, nth_error (docs_of custom) i = Some kd -> zlen (snd kd) < 2 ^ 64).
  { intros i kd Hi. apply nth_error_In in Hi. rewrite Forall_forall in Hfit. auto. }
  set (bkey := if v3 then "zarr.json" else ".zattrs") in *.
  assert (N0 : nth_error d0 0 = Some (bkey, [])). { unfold d0, bkey. destruct v3; reflexivity. }
  destruct (write_metadata_ok E HE root bk (set_msinks s ms) w1 d0 0 bkey [] base_doc "Error writing base metadata") as (ms2 & w2 & R2 & X2 & M2); auto.
  { rewrite ND0. apply mnames_nodup. }
  { left. split; auto. apply (FI 0%nat (bkey, base_doc)). unfold docs_of, bkey. destruct v3; reflexivity. }
  set (d1 := upd d0 0 (bkey, base_doc)) in *.
  assert (O2 := opened_msinks _ _ _ _ ms2 O1).
  set (s2 := set_msinks (set_msinks s ms) ms2) in *.
  destruct (group_doc_ok s2 (op_v3 _ _ _ _ O2) (op_dims _ _ _ _ O2)) as [G1 G2]; [rewrite (op_ws _ _ _ _ O2); auto|].
  set (gkey := if v3 then "meta/root.group.json" else ".zgroup") in *.
  assert (K1 : map fst d1 = mnames v3). { unfold d1, d0, bkey. destruct v3; reflexivity. }
  destruct (write_metadata_ok E HE root bk s2 w2 d1 1 gkey [] group_doc "Error writing group metadata") as (ms3 & w3 & R3 & X3 & M3); auto.
  { rewrite K1. apply mnames_nodup. }
  { unfold d1, d0, gkey. destruct v3; reflexivity. }
  { left. split; auto. apply (FI 1%nat (gkey, group_doc)). unfold docs_of, gkey. destruct v3; reflexivity. }
  set (d2 := upd d1 1 (gkey, group_doc)) in *.
  assert (O3 := opened_msinks _ _ _ _ ms3 O2).
  set (s3 := set_msinks s2 ms3) in *.
  assert (K2 : map fst d2 = mnames v3). { unfold d2, d1, d0, bkey, gkey. destruct v3; reflexivity. }
  assert (EXT : exists ms4 w4, write_external_metadata E (s3, w3) = ((set_msinks s3 ms4, w4), Ok true) /\
      extends (meta_ev root bk (mnames v3)) w3 w4 /\ msinks_hold E root bk w4 ms4 (docs_of custom)).
  { unfold write_external_metadata. unfold bind at 1, getT. cbn [fst]. rewrite (op_custom _ _ _ _ O3), (op_v3 _ _ _ _ O3).
    destruct (String.eqb custom "") eqn:Ec.
    - exists (s_msinks s3), w3. split; [destruct s3; reflexivity|]. split; [apply extends_refl|].
      change (s_msinks s3) with ms3.
      replace (docs_of custom) with d2; [exact M3|]. unfold d2, d1, d0, docs_of, ext_doc, bkey, gkey. rewrite Ec. destruct v3; reflexivity.
    - destruct (write_metadata_ok E HE root bk s3 w3 d2 ext_i (external_key v3) [] (ext_doc custom) "Error writing external metadata") as (ms4 & w4 & R4 & X4 & M4); auto.
      + rewrite K2. apply mnames_nodup.
      + unfold d2, d1, d0, ext_i, external_key. destruct v3; reflexivity.
      + left. split; auto. apply (FI ext_i (external_key v3, ext_doc custom)). unfold docs_of, ext_i, external_key. destruct v3; reflexivity.
      + exists ms4, w4. split; [|split].
        * unfold ext_doc in R4. rewrite Ec in R4. exact R4.
        * eapply extends_impl; [|exact X4]. intros e Hev. right. exists (external_key v3). split; auto. unfold external_key. destruct v3; cbn; auto.
        * replace (docs_of custom) with (upd d2 ext_i (external_key v3, ext_doc custom)); auto.
          unfold d2, d1, d0, docs_of, ext_i, external_key, bkey, gkey. destruct v3; reflexivity. }
  destruct EXT as (ms4 & w4 & R4 & X4 & M4).
  assert (O4 := opened_msinks _ _ _ _ ms4 O3).
  assert (X : extends (meta_ev root bk (mnames v3)) w w4).
  { eapply extends_trans; [exact X1|]. eapply extends_trans; [|eapply extends_trans; [|exact X4]].
    - eapply extends_impl; [|exact X2]. intros e Hev. right. exists bkey. split; auto. unfold bkey. destruct v3; cbn; auto.
    - eapply extends_impl; [|exact X3]. intros e Hev. right. exists gkey. split; auto. unfold gkey. destruct v3; cbn; auto. }
  exists (set_msinks s3 ms4), w4. split; [|split]; auto.
  - rewrite (bind_ok _ _ _ _ true R1). cbv beta iota. cbn [expectM]. unfold bind at 1, ret at 1.
    rewrite (bind_ok _ _ _ (s2, w2) true).
    2:{ unfold write_base_metadata. unfold bind at 1, getT. cbn [fst]. rewrite B1. rewrite B2. exact R2. }
    cbn [expectM]. unfold bind at 1, ret at 1. rewrite (bind_ok _ _ _ (s3, w3) true).
    2:{ unfold write_group_metadata. unfold bind at 1, getT. cbn [fst]. rewrite G1. rewrite G2. exact R3. }
    cbn [expectM]. unfold bind at 1, ret at 1. rewrite (bind_ok _ _ _ _ true R4). reflexivity.
  - destruct O4. constructor; auto.
    + intros M. rewrite op_multi0 in M. auto.
    + destruct X as (evs & _ & _ & _ & ->). auto.
    + rewrite op_ws0. eapply lv_meta; [exact X|]. apply lv_init; auto.
    + intros M. rewrite op_multi0 in M. rewrite op_sc0 by exact M. apply synced_init.
    + rewrite op_leak0. unfold leaksum. clear. induction (seq 1 (n - 2)) as [|j l IH]; cbn [map fold_right]; [reflexivity|]. rewrite <- IH. replace (nth j (repeat [] n) []) with (@nil (list Z)) by (generalize n; clear; intros k; revert j; induction k; intros [|j]; cbn; auto). reflexivity.
    + apply docs_keys.
Qed.

Lemma new_stream_ok st s0 ws w :
  validate_settings E w (Some st) = Ok true -> commit st = Ok s0 ->
  s_v3 s0 = v3 -> s_root s0 = root -> s_bucket s0 = bk -> s_dtype s0 = dt -> s_dims s0 = l_ds L0 ->
  (s_multi s0 = false -> Lr = []) ->
  (forall b, create_writers (set_fbuf s0 b 0) = Ok ws) -> Forall2 (fun L a => make_writer v3 (l_cfg L) = Ok a) Ls ws ->
  docs_fit (s_custom s0) -> w_err w = "" -> (bk = None -> tree w) -> (bk <> None -> e_conns E <> 0%nat) ->
  exists s w', new_stream E (Some st) w = (w', Ok s) /\ sinv (repeat [] n) (docs_of (s_custom s0)) s w' /\
    (exists evs, w_trace w' = w_trace w ++ evs /\ Forall (fun e => all_ev e \/ e = ERemoveAll root) evs) /\
    (bk = None -> exists w1 evs, fresh E root w1 /\ w_trace w' = w_trace w1 ++ evs).
Proof.
  intros HV HC C1 C2 C3 C4 C5 C6 HW HF HD He Ht Hc.
  assert (H0 : nth_error Ls 0 = Some L0) by reflexivity. destruct (Hlev 0 L0 H0) as [K0 _].
  assert (BF : bytes_of_frame (s_dims s0) (s_dtype s0) = Ok (l_fb L0)).
  { rewrite C4, C5. exact (DimProofs.bytes_of_frame_exact bpp dt (l_d0 L0) (l_mids L0) (l_dy L0) (l_dx L0) (lo_f _ _ _ _ _ _ K0) Hdt). }
  set (s1 := set_fbuf s0 (zrep 0 (l_fb L0)) 0).
  destruct (create_store_ok s1 w C2 C3 He Ht Hc) as (w1 & R1 & E1 & F1 & G1 & _ & _ & (evs1 & V1 & W1)).
  set (s2 := set_writers s1 ws). set (s3 := if s_multi s2 then set_scaled s2 (map (fun _ => None) ws) 0 else s2).
  assert (Hlen : List.length ws = n). { clear -HF. unfold n. induction HF; cbn; auto. }
  assert (NS : map (fun _ : writer => @None (list Z)) ws = repeat None n).
  { rewrite <- Hlen. clear. induction ws; cbn; congruence. }
  assert (Fp := fb_pos 0 L0 H0).
  assert (LK : s_leaked s0 = 0). { unfold commit in HC. destruct (make_dimensions _); try discriminate. injection HC as <-. reflexivity. }
  assert (O : opened (s_multi s0) (s_custom s0) s3 ws).
  { unfold s3. change (s_multi s2) with (s_multi s0). destruct (s_multi s0) eqn:M; constructor; auto;
      try (unfold s2, s1, zrep, zlen; cbn; rewrite repeat_length; lia). discriminate. }
  destruct (open_metadata_ok (s_multi s0) (s_custom s0) s3 ws w1 O C6 HF HD E1 F1 G1) as (s' & w' & R & I & X).
  exists s', w'. split; [|split; [exact I|split]].
  3:{ intros B. destruct X as (evs2 & V2 & _). exists w1, evs2. auto. }
  2:{ destruct X as (evs2 & V2 & W2 & _). exists (evs1 ++ evs2). rewrite V2, V1, app_assoc. split; [reflexivity|]. apply Forall_app. split.
      - eapply Forall_impl; [|exact W1]. intros e [He'|He']; [left; right; left; exact He'|right; exact He'].
      - eapply Forall_impl; [|exact W2]. intros e He'. left. right. exact He'. }
  unfold new_stream. rewrite HV, HC. unfold liftM at 1. unfold bind at 1. rewrite BF. unfold liftM at 1. unfold bind at 1. fold s1.
  rewrite (bind_ok _ _ _ _ true R1). cbn [expectM]. unfold bind at 1, ret at 1. unfold s1 at 1. rewrite HW. unfold bind at 1, liftM. fold s2. fold s3.
  rewrite R. reflexivity.
Qed.

End St.
