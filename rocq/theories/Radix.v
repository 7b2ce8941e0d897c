(** Arithmetic facts: wraps, products, row-major indexing, list accessors. *)
Require Import ZArith List Bool String Ascii Lia FinFun.
Require Import Verif.Base Verif.Spec.
Import ListNotations.
Open Scope Z_scope.

Ltac inv H := inversion H; subst; clear H.

(** ** wraps *)
Lemma u32_id x : 0 <= x < 2 ^ 32 -> u32 x = x.
Proof. intros; unfold u32; apply Z.mod_small; auto. Qed.
Lemma u64_id x : 0 <= x < 2 ^ 64 -> u64 x = x.
Proof. intros; unfold u64; apply Z.mod_small; auto. Qed.
Lemma u32_range x : 0 <= u32 x < 2 ^ 32.
Proof. apply Z.mod_pos_bound; lia. Qed.
Lemma u64_range x : 0 <= u64 x < 2 ^ 64.
Proof. apply Z.mod_pos_bound; lia. Qed.
Lemma s64_id x : 0 <= x < 2 ^ 63 -> s64 x = x.
Proof.
  intros; unfold s64. rewrite Z.mod_small by lia.
  destruct (x <? 2 ^ 63) eqn:E; auto. apply Z.ltb_ge in E; lia.
Qed.

(** A wrap at modulus [m]. *)
Definition wraps (w : Z -> Z) (m : Z) : Prop := forall x, 0 <= x < m -> w x = x.
Lemma wraps_u32 : wraps u32 (2 ^ 32). Proof. intros x; apply u32_id. Qed.
Lemma wraps_u64 : wraps u64 (2 ^ 64). Proof. intros x; apply u64_id. Qed.

(** ** division *)
Lemma ceil_div_pos a b : 0 < a -> 0 < b -> 0 < ceil_div a b.
Proof. intros; unfold ceil_div. apply Z.div_str_pos; lia. Qed.
Lemma ceil_div_nonneg a b : 0 <= a -> 0 < b -> 0 <= ceil_div a b.
Proof. intros; unfold ceil_div. apply Z.div_pos; lia. Qed.
Lemma ceil_div_spec a b : 0 < b -> a <= ceil_div a b * b < a + b.
Proof.
  intros. unfold ceil_div.
  pose proof (Z.div_mod (a + b - 1) b ltac:(lia)).
  pose proof (Z.mod_pos_bound (a + b - 1) b ltac:(lia)). nia.
Qed.
Lemma div_lt_ceil a b x : 0 < b -> 0 <= x < a -> 0 <= x / b < ceil_div a b.
Proof.
  intros Hb Hx. split; [apply Z.div_pos; lia|].
  apply Z.div_lt_upper_bound; auto.
  pose proof (ceil_div_spec a b Hb). lia.
Qed.
Lemma ceil_div_le a b : 0 <= a -> 0 < b -> ceil_div a b <= a.
Proof.
  intros. unfold ceil_div. destruct (Z.eq_dec a 0).
  - subst. rewrite Z.div_small; lia.
  - assert (a + b - 1 <= a * b) by nia.
    apply Z.le_trans with (a * b / b). apply Z.div_le_mono; lia. rewrite Z.div_mul; lia.
Qed.
Lemma ceil_div_1 a : ceil_div a 1 = a.
Proof. unfold ceil_div. rewrite Z.div_1_r. lia. Qed.
Lemma div_unique' a b q r : 0 <= r < b -> a = b * q + r -> a / b = q.
Proof. intros; symmetry; eapply Z.div_unique; [left; eauto|auto]. Qed.
Lemma mod_unique' a b q r : 0 <= r < b -> a = b * q + r -> a mod b = r.
Proof. intros; symmetry; eapply Z.mod_unique; [left; eauto|eauto]. Qed.
Lemma mod_mod_mul x a b : 0 < a -> 0 < b -> (x mod (a * b)) mod b = x mod b.
Proof.
  intros. rewrite Z.mul_comm, Z.rem_mul_r by lia.
  rewrite Z.mul_comm, Z_mod_plus_full. apply Z.mod_mod; lia.
Qed.
Lemma mod_mul_div x a b : 0 < a -> 0 < b -> (x mod (a * b)) / b = (x / b) mod a.
Proof.
  intros. rewrite Z.mul_comm, Z.rem_mul_r by lia.
  rewrite Z.mul_comm, Z.div_add by lia.
  rewrite (Z.div_small (x mod b)); [lia|]. apply Z.mod_pos_bound; lia.
Qed.

(** ** products *)
Definition allpos (l : list Z) : Prop := Forall (fun d => 0 < d) l.

Lemma allpos_cons a l : allpos (a :: l) <-> 0 < a /\ allpos l.
Proof. unfold allpos; split; intros H; [inv H; auto|constructor; tauto]. Qed.
Lemma allpos_app l m : allpos (l ++ m) <-> allpos l /\ allpos m.
Proof. unfold allpos; apply Forall_app. Qed.
Lemma prodZ_pos l : allpos l -> 0 < prodZ l.
Proof. induction 1; simpl; nia. Qed.
Lemma prodZ_app l m : prodZ (l ++ m) = prodZ l * prodZ m.
Proof. induction l; simpl; [lia|]. rewrite IHl; lia. Qed.
Lemma prodZ_ge1 l : allpos l -> 1 <= prodZ l.
Proof. intros H; apply prodZ_pos in H; lia. Qed.
Lemma allpos_skipn n l : allpos l -> allpos (skipn n l).
Proof. unfold allpos; revert n; induction l; intros [|n]; simpl; auto; intros H; inv H; auto. Qed.
Lemma allpos_firstn n l : allpos l -> allpos (firstn n l).
Proof. unfold allpos; revert n; induction l; intros [|n]; simpl; auto; intros H; inv H; auto. Qed.
Lemma prodZ_firstn_skipn n l : prodZ l = prodZ (firstn n l) * prodZ (skipn n l).
Proof. rewrite <- prodZ_app, firstn_skipn; auto. Qed.
Lemma prodZ_mono l m : allpos l -> Forall2 Z.le l m -> prodZ l <= prodZ m.
Proof.
  intros Hl H; induction H; simpl; [lia|]. apply allpos_cons in Hl as [? Hl].
  specialize (IHForall2 Hl). pose proof (prodZ_pos _ Hl). nia.
Qed.

(** folds with wraps *)
Lemma fold_mul_exact {A} (w : Z -> Z) m (f : A -> Z) l :
  wraps w m -> forall a, 0 <= a -> allpos (map f l) -> a * prodZ (map f l) < m ->
  fold_left (fun acc d => w (acc * f d)) l a = a * prodZ (map f l).
Proof.
  intros Hw. induction l as [|d l IH]; simpl; intros a Ha Hp Hlt; [lia|].
  apply allpos_cons in Hp as [Hd Hp]. pose proof (prodZ_pos _ Hp).
  assert (0 <= a * f d) by nia.
  assert (a * f d <= a * (f d * prodZ (map f l))) by nia.
  rewrite Hw by lia. rewrite IH by (auto; nia). lia.
Qed.

Lemma ofold_app {A B} (f : B -> A -> outcome B) l m b :
  ofold f (l ++ m) b = obind (ofold f l b) (fun b' => ofold f m b').
Proof. revert b; induction l; simpl; intros; auto. destruct (f b a); simpl; auto. Qed.

Lemma ofold_mul_exact {A} (w : Z -> Z) m (g : A -> outcome Z) (f : A -> Z) l :
  wraps w m -> Forall (fun d => g d = Ok (f d)) l ->
  forall a, 0 <= a -> allpos (map f l) -> a * prodZ (map f l) < m ->
  ofold (fun acc d => let? n := g d in Ok (w (acc * n))) l a = Ok (a * prodZ (map f l)).
Proof.
  intros Hw Hg. induction Hg as [|d l Hd Hg IH]; simpl; intros a Ha Hp Hlt.
  - f_equal; lia.
  - apply allpos_cons in Hp as [Hd' Hp]. pose proof (prodZ_pos _ Hp).
    assert (0 <= a * f d) by nia.
    assert (a * f d <= a * (f d * prodZ (map f l))) by nia.
    rewrite Hd; simpl. rewrite Hw by lia. rewrite IH by (auto; nia). f_equal; lia.
Qed.

(** suffix products *)
Fixpoint sprods (l : list Z) : list Z :=
  match l with [] => [] | _ :: l' => prodZ l' :: sprods l' end.

Lemma sprods_length l : List.length (sprods l) = List.length l.
Proof. induction l; simpl; auto. Qed.

Fixpoint dot (l m : list Z) : Z :=
  match l, m with a :: l', b :: m' => a * b + dot l' m' | _, _ => 0 end.

Lemma dot_sprods sh ix : List.length sh = List.length ix -> dot ix (sprods sh) = ravel sh ix.
Proof.
  revert ix; induction sh; destruct ix; simpl; intros H; try lia; auto.
  rewrite IHsh; lia.
Qed.

(** ** ravel / unravel *)
Lemma in_bounds_length sh ix : in_bounds sh ix -> List.length sh = List.length ix.
Proof. revert ix; induction sh; destruct ix; simpl; intuition. Qed.
Lemma in_bounds_allpos sh ix : in_bounds sh ix -> allpos sh.
Proof.
  revert ix; induction sh; destruct ix; simpl; intros; try constructor; intuition; try lia.
  eapply IHsh; eauto.
Qed.
Lemma ravel_bound sh ix : in_bounds sh ix -> 0 <= ravel sh ix < prodZ sh.
Proof.
  revert ix; induction sh; destruct ix; simpl; intros H; try lia; try tauto.
  destruct H as [H1 H2]. specialize (IHsh _ H2). nia.
Qed.
Lemma ravel_unravel sh p : allpos sh -> 0 <= p < prodZ sh -> ravel sh (unravel sh p) = p.
Proof.
  revert p; induction sh; simpl; intros p Hp H; [lia|].
  apply allpos_cons in Hp as [Ha Hp]. pose proof (prodZ_pos _ Hp).
  rewrite IHsh; auto; [|apply Z.mod_pos_bound; auto].
  pose proof (Z.div_mod p (prodZ sh) ltac:(lia)). lia.
Qed.
Lemma unravel_in_bounds sh p : allpos sh -> 0 <= p < prodZ sh -> in_bounds sh (unravel sh p).
Proof.
  revert p; induction sh; simpl; intros p Hp H; auto.
  apply allpos_cons in Hp as [Ha Hp]. pose proof (prodZ_pos _ Hp). split.
  - split; [apply Z.div_pos; lia|apply Z.div_lt_upper_bound; lia].
  - apply IHsh; auto. apply Z.mod_pos_bound; auto.
Qed.
Lemma unravel_ravel sh ix : in_bounds sh ix -> unravel sh (ravel sh ix) = ix.
Proof.
  revert ix; induction sh; destruct ix; simpl; intros H; try tauto; auto.
  destruct H as [H1 H2]. pose proof (ravel_bound _ _ H2).
  f_equal.
  - apply div_unique' with (ravel sh ix); lia.
  - rewrite (mod_unique' _ _ z (ravel sh ix)) by lia. auto.
Qed.
Lemma ravel_inj sh ix ix' :
  in_bounds sh ix -> in_bounds sh ix' -> ravel sh ix = ravel sh ix' -> ix = ix'.
Proof. intros H H' E. rewrite <- (unravel_ravel sh ix), <- (unravel_ravel sh ix'), E; auto. Qed.
Lemma unravel_length sh p : List.length (unravel sh p) = List.length sh.
Proof. revert p; induction sh; simpl; auto. Qed.
Lemma ravel_app sh1 sh2 ix1 ix2 :
  List.length sh1 = List.length ix1 ->
  ravel (sh1 ++ sh2) (ix1 ++ ix2) = ravel sh1 ix1 * prodZ sh2 + ravel sh2 ix2.
Proof.
  revert ix1; induction sh1; destruct ix1; simpl; intros H; try lia.
  rewrite IHsh1 by lia. rewrite prodZ_app. lia.
Qed.
Lemma in_bounds_app sh1 sh2 ix1 ix2 :
  List.length sh1 = List.length ix1 ->
  (in_bounds (sh1 ++ sh2) (ix1 ++ ix2) <-> in_bounds sh1 ix1 /\ in_bounds sh2 ix2).
Proof.
  revert ix1; induction sh1; destruct ix1; simpl; intros H; try lia; try tauto.
  rewrite IHsh1 by lia. tauto.
Qed.
Lemma in_bounds_nonneg sh ix : in_bounds sh ix -> Forall (fun i => 0 <= i) ix.
Proof. revert ix; induction sh; destruct ix; simpl; intros H; try tauto; constructor; intuition. Qed.

(** ** zip_with *)
Lemma zip_with_length {A B C} (f : A -> B -> C) l m :
  List.length l = List.length m -> List.length (zip_with f l m) = List.length l.
Proof. revert m; induction l; destruct m; simpl; intros; auto; lia. Qed.
Lemma zip_with_cons {A B C} (f : A -> B -> C) a l b m :
  zip_with f (a :: l) (b :: m) = f a b :: zip_with f l m.
Proof. reflexivity. Qed.
Lemma zip_with_nil {A B C} (f : A -> B -> C) m : zip_with f [] m = [].
Proof. reflexivity. Qed.
Lemma zip_with_app {A B C} (f : A -> B -> C) l l' m m' :
  List.length l = List.length m ->
  zip_with f (l ++ l') (m ++ m') = zip_with f l m ++ zip_with f l' m'.
Proof.
  revert m; induction l; destruct m; simpl; intros; try lia; try reflexivity.
   simpl. f_equal. apply IHl; lia.
Qed.
Lemma nth_zip_with {A B C} (f : A -> B -> C) l m i da db dc :
  (i < List.length l)%nat -> (i < List.length m)%nat ->
  nth i (zip_with f l m) dc = f (nth i l da) (nth i m db).
Proof.
  revert m i; induction l; destruct m; simpl; intros i H1 H2; try lia.
  destruct i; auto. apply (IHl m i); lia.
Qed.

(** chunk coordinates and inner coordinates of an index *)
Lemma zip_div_bounds sh cs ix :
  allpos cs -> List.length sh = List.length cs -> in_bounds sh ix ->
  in_bounds (zip_with ceil_div sh cs) (zip_with Z.div ix cs).
Proof.
  revert cs ix; induction sh; destruct cs; destruct ix; simpl; intros Hp Hl H; try lia; try tauto.
  apply allpos_cons in Hp as [Hc Hp].  simpl. split.
  - apply div_lt_ceil; tauto.
  - apply IHsh; auto; tauto.
Qed.
Lemma zip_mod_bounds cs ix :
  allpos cs -> List.length ix = List.length cs -> in_bounds cs (zip_with Z.modulo ix cs).
Proof.
  revert ix; induction cs; destruct ix; simpl; intros Hp Hl; try lia; auto.
  apply allpos_cons in Hp as [Hc Hp].  simpl. split.
  - apply Z.mod_pos_bound; auto.
  - apply IHcs; auto; lia.
Qed.
Lemma div_mod_ext cs ix ix' :
  allpos cs -> List.length ix = List.length cs -> List.length ix' = List.length cs ->
  zip_with Z.div ix cs = zip_with Z.div ix' cs ->
  zip_with Z.modulo ix cs = zip_with Z.modulo ix' cs -> ix = ix'.
Proof.
  revert ix ix'; induction cs; destruct ix, ix'; simpl; intros Hp L1 L2 H1 H2; try lia; auto.
   inv H1; inv H2.
  apply allpos_cons in Hp as [Hc Hp]. f_equal.
  - rewrite (Z.div_mod z a), (Z.div_mod z0 a) by lia. congruence.
  - apply IHcs; auto.
Qed.

(** the index with given chunk and inner coordinates *)
Definition unchunk (cs cc ee : list Z) : list Z :=
  zip_with Z.add (zip_with Z.mul cc cs) ee.

Lemma unchunk_div cs cc ee :
  List.length cc = List.length cs -> in_bounds cs ee -> zip_with Z.div (unchunk cs cc ee) cs = cc.
Proof.
  unfold unchunk. revert cc ee; induction cs; destruct cc; destruct ee; simpl; intros L H;
    try lia; try tauto.
   f_equal; [|apply IHcs; tauto || lia].
  destruct H as [H _]. apply div_unique' with z0; lia.
Qed.
Lemma unchunk_mod cs cc ee :
  List.length cc = List.length cs -> in_bounds cs ee -> zip_with Z.modulo (unchunk cs cc ee) cs = ee.
Proof.
  unfold unchunk. revert cc ee; induction cs; destruct cc; destruct ee; simpl; intros L H;
    try lia; try tauto.
   f_equal; [|apply IHcs; tauto || lia].
  destruct H as [H _]. apply mod_unique' with z; lia.
Qed.
Lemma unchunk_div_mod cs ix :
  allpos cs -> List.length ix = List.length cs ->
  unchunk cs (zip_with Z.div ix cs) (zip_with Z.modulo ix cs) = ix.
Proof.
  unfold unchunk. revert ix; induction cs; destruct ix; simpl; intros Hp L; try lia; auto.
  apply allpos_cons in Hp as [Ha Hp].  f_equal.
  - pose proof (Z.div_mod z a ltac:(lia)). lia.
  - apply IHcs; auto.
Qed.
Lemma unchunk_length cs cc ee :
  List.length cc = List.length cs -> List.length ee = List.length cs ->
  List.length (unchunk cs cc ee) = List.length cs.
Proof. intros. unfold unchunk. rewrite !zip_with_length; auto. rewrite zip_with_length; lia. Qed.

(** ** list accessors *)
Lemma zlen_nonneg {A} (l : list A) : 0 <= zlen l.
Proof. unfold zlen; lia. Qed.
Lemma zlen_app {A} (l m : list A) : zlen (l ++ m) = zlen l + zlen m.
Proof. unfold zlen; rewrite app_length; lia. Qed.
Lemma zlen_cons {A} (a : A) l : zlen (a :: l) = 1 + zlen l.
Proof. unfold zlen; simpl List.length; lia. Qed.
Lemma zrep_length {A} (a : A) n : List.length (zrep a n) = Z.to_nat n.
Proof. apply repeat_length. Qed.
Lemma zlen_zrep {A} (a : A) n : 0 <= n -> zlen (zrep a n) = n.
Proof. intros; unfold zlen; rewrite zrep_length; lia. Qed.
Lemma zseq_length n : List.length (zseq n) = Z.to_nat n.
Proof. unfold zseq; rewrite map_length, seq_length; auto. Qed.
Lemma in_zseq n i : In i (zseq n) <-> 0 <= i < n.
Proof.
  unfold zseq. rewrite in_map_iff. split.
  - intros [k [<- H]]. apply in_seq in H. lia.
  - intros H. exists (Z.to_nat i). split; [lia|]. apply in_seq. lia.
Qed.
Lemma nth_zseq n i d : 0 <= i < n -> nth (Z.to_nat i) (zseq n) d = i.
Proof.
  intros. unfold zseq. rewrite nth_indep with (d' := Z.of_nat 0).
  - rewrite map_nth, seq_nth by lia. lia.
  - rewrite map_length, seq_length. lia.
Qed.
Lemma zseq_S n : 0 <= n -> zseq (n + 1) = zseq n ++ [n].
Proof.
  intros. unfold zseq. replace (Z.to_nat (n + 1)) with (S (Z.to_nat n)) by lia.
  rewrite seq_S, map_app. simpl. repeat f_equal. lia.
Qed.
Lemma nodup_zseq n : NoDup (zseq n).
Proof.
  unfold zseq. apply Injective_map_NoDup; [|apply seq_NoDup]. intros a b; lia.
Qed.

Lemma getb_zrep0 n i : getb (zrep 0 n) i = 0.
Proof. unfold getb, zrep. destruct (Nat.lt_ge_cases (Z.to_nat i) (Z.to_nat n)).
  - apply nth_repeat.
  - apply nth_overflow. rewrite repeat_length; lia.
Qed.
Lemma getb_overflow l i : 0 <= i -> zlen l <= i -> getb l i = 0.
Proof. intros; unfold getb, zlen in *. apply nth_overflow. lia. Qed.
Lemma getb_app1 l m i : 0 <= i < zlen l -> getb (l ++ m) i = getb l i.
Proof. unfold getb, zlen; intros. apply app_nth1. lia. Qed.
Lemma getb_app2 l m i : zlen l <= i -> getb (l ++ m) i = getb m (i - zlen l).
Proof. unfold getb, zlen; intros. rewrite app_nth2 by lia. f_equal. lia. Qed.
Lemma nth_skipn {A} (l : list A) n i d : nth i (skipn n l) d = nth (n + i) l d.
Proof.
  revert n; induction l; intros [|n]; simpl; auto.
  - destruct i; auto.
Qed.
Lemma nth_firstn {A} (l : list A) n i d : (i < n)%nat -> nth i (firstn n l) d = nth i l d.
Proof.
  revert n i; induction l; intros [|n] [|i]; simpl; intros; try lia; auto.
  apply IHl; lia.
Qed.
Lemma getb_slice l off n i : 0 <= off -> 0 <= i < n -> getb (slice l off n) i = getb l (off + i).
Proof.
  intros. unfold getb, slice. rewrite nth_firstn by lia. rewrite nth_skipn. f_equal. lia.
Qed.
Lemma slice_length l off n :
  0 <= off -> 0 <= n -> off + n <= zlen l -> zlen (slice l off n) = n.
Proof. intros. unfold zlen, slice in *. rewrite firstn_length, skipn_length. lia. Qed.
Lemma splice_length buf off data :
  0 <= off -> off + zlen data <= zlen buf -> zlen (splice buf off data) = zlen buf.
Proof.
  intros. unfold zlen, splice in *. rewrite !app_length, firstn_length, skipn_length. lia.
Qed.
Lemma getb_splice buf off data i :
  0 <= off -> off + zlen data <= zlen buf -> 0 <= i ->
  getb (splice buf off data) i =
  if (off <=? i) && (i <? off + zlen data) then getb data (i - off) else getb buf i.
Proof.
  intros Ho Hl Hi. unfold splice.
  assert (L1 : zlen (firstn (Z.to_nat off) buf) = off).
  { unfold zlen in *. rewrite firstn_length. lia. }
  destruct (off <=? i) eqn:E1; simpl.
  - apply Z.leb_le in E1. rewrite getb_app2 by lia. rewrite L1.
    destruct (i <? off + zlen data) eqn:E2.
    + apply Z.ltb_lt in E2. rewrite getb_app1 by lia. auto.
    + apply Z.ltb_ge in E2. rewrite getb_app2 by lia.
      unfold getb. rewrite nth_skipn. unfold zlen in *. f_equal. lia.
  - apply Z.leb_gt in E1. rewrite getb_app1 by lia. unfold getb. apply nth_firstn. lia.
Qed.

Lemma list_eq_getb l m : zlen l = zlen m -> (forall i, 0 <= i < zlen l -> getb l i = getb m i) -> l = m.
Proof.
  intros L H. apply nth_ext with 0 0; [unfold zlen in L; lia|].
  intros n Hn. specialize (H (Z.of_nat n)). unfold getb, zlen in H.
  rewrite Nat2Z.id in H. apply H. lia.
Qed.

(** ** upd *)
Lemma upd_length {A} (l : list A) i a : List.length (upd l i a) = List.length l.
Proof.
  unfold upd. revert i; induction l; intros [|i]; simpl; auto.
Qed.
Lemma nth_upd {A} (l : list A) i j a d :
  (i < List.length l)%nat -> nth j (upd l i a) d = if Nat.eqb i j then a else nth j l d.
Proof.
  unfold upd. revert i j; induction l; intros [|i] [|j]; simpl; intros; try lia; auto.
  apply (IHl i j). lia.
Qed.
Lemma upd_nth_same {A} (l : list A) i d : upd l i (nth i l d) = l.
Proof.
  unfold upd. revert i; induction l; intros [|i]; simpl; auto.
  f_equal. apply (IHl i).
Qed.

(** ** little endian *)
Lemma le_bytes_length n x : List.length (le_bytes n x) = n.
Proof. revert x; induction n; simpl; auto. Qed.
Lemma le_value_bytes n x : 0 <= x < 256 ^ Z.of_nat n -> le_value (le_bytes n x) = x.
Proof.
  revert x; induction n; intros x H.
  - simpl in *. lia.
  - rewrite Nat2Z.inj_succ, Z.pow_succ_r in H by lia. simpl.
    rewrite IHn.
    + pose proof (Z.div_mod x 256 ltac:(lia)). lia.
    + split; [apply Z.div_pos; lia|apply Z.div_lt_upper_bound; lia].
Qed.
