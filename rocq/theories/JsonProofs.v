(** The reader of JsonSpec.v reads back every document the model writes. *)
Require Import ZArith List Bool String Ascii Lia Zify.
Require Import Verif.Base Verif.Json Verif.JsonSpec.
Import ListNotations.
Open Scope string_scope.
Open Scope list_scope.
Open Scope Z_scope.

Fixpoint jval (j : json) : jv :=
  match j with
  | JNull => VNull
  | JInt z => VNum z ""
  | JDbl z => VNum z "0"
  | JStr s => VStr s
  | JArr l => VArr (map jval l)
  | JObj l => VObj (map (fun kx => (fst kx, jval (snd kx))) l)
  end.

Fixpoint jwf (j : json) : Prop :=
  match j with
  | JInt z | JDbl z => 0 <= z
  | JArr l => (fix go l := match l with [] => True | x :: l' => jwf x /\ go l' end) l
  | JObj l => (fix go (l : list (string * json)) := match l with [] => True | kx :: l' => jwf (snd kx) /\ go l' end) l
  | _ => True
  end.

Fixpoint jsize (j : json) : nat :=
  match j with
  | JArr l => S ((fix go l := match l with [] => O | x :: l' => S (jsize x) + go l' end) l)%nat
  | JObj l => S ((fix go (l : list (string * json)) := match l with [] => O | kx :: l' => S (jsize (snd kx)) + go l' end) l)%nat
  | _ => 1%nat
  end.

Section Ind.
Variable P : json -> Prop.
Hypothesis H0 : P JNull.
Hypothesis H1 : forall z, P (JInt z).
Hypothesis H2 : forall z, P (JDbl z).
Hypothesis H3 : forall s, P (JStr s).
Hypothesis H4 : forall l, Forall P l -> P (JArr l).
Hypothesis H5 : forall l, Forall (fun kx => P (snd kx)) l -> P (JObj l).
Fixpoint json_all (j : json) : P j :=
  match j return P j with
  | JNull => H0 | JInt z => H1 z | JDbl z => H2 z | JStr s => H3 s
  | JArr l => H4 l ((fix go l : Forall P l := match l with [] => Forall_nil _ | x :: l' => Forall_cons _ (json_all x) (go l') end) l)
  | JObj l => H5 l ((fix go l : Forall (fun kx => P (snd kx)) l := match l with [] => Forall_nil _ | kx :: l' => Forall_cons _ (json_all (snd kx)) (go l') end) l)
  end.
End Ind.

Lemma sapp_assoc (a b c : string) : ((a ++ b) ++ c = a ++ (b ++ c))%string.
Proof. induction a; cbn; congruence. Qed.
Lemma slen_app (a b : string) : String.length (a ++ b)%string = (String.length a + String.length b)%nat.
Proof. induction a; cbn; congruence. Qed.

Lemma skip_spaces n s : skip_ws (spaces n ++ s)%string = skip_ws s.
Proof. induction n as [|n IH]; [reflexivity|]. cbn [spaces]. exact IH. Qed.
Lemma skip_nl s : skip_ws (nl ++ s)%string = skip_ws s.
Proof. reflexivity. Qed.
Lemma skip_sp s : skip_ws (" " ++ s)%string = skip_ws s.
Proof. reflexivity. Qed.

(** *** numbers *)
Definition quiet (r : string) : Prop := match r with "" => True | String c _ => is_dig c = false /\ code c <> 46 end.

Lemma code_digit d : 0 <= d < 10 -> is_dig (digit d) = true /\ code (digit d) = 48 + d.
Proof.
  intros H. assert (X : d = 0 \/ d = 1 \/ d = 2 \/ d = 3 \/ d = 4 \/ d = 5 \/ d = 6 \/ d = 7 \/ d = 8 \/ d = 9) by lia.
  decompose [or] X; subst; split; reflexivity.
Qed.
Lemma log_fuel n f : 0 <= n < 2 ^ Z.of_nat (S f) -> n / 10 <> 0 -> 0 <= n / 10 < 2 ^ Z.of_nat f.
Proof.
  intros [A B] _. split; [apply Z.div_pos; lia|]. rewrite Nat2Z.inj_succ, Z.pow_succ_r in B by lia.
  apply Z.div_lt_upper_bound; lia.
Qed.
Lemma div10_fuel n f : 0 <= n < 2 ^ Z.of_nat (S f) -> n / 10 <> 0 -> f <> O.
Proof.
  intros H D ->. change (2 ^ Z.of_nat 1) with 2 in H. apply D. apply Z.div_small. lia.
Qed.
Lemma digits_dec_aux f : forall n s, f <> O -> 0 <= n < 2 ^ Z.of_nat f -> exists k, 0 <= k /\ forall a, digits (dec_aux f n s) a = digits s (a * 10 ^ k + n).
Proof.
  induction f as [|f IH]; intros n s F H; [congruence|]. cbn [dec_aux].
  assert (M : 0 <= n mod 10 < 10) by (apply Z.mod_pos_bound; lia). destruct (code_digit _ M) as [D C].
  pose proof (Z.div_mod n 10 ltac:(lia)) as DM.
  destruct (Z.eqb_spec (n / 10) 0) as [Z0|Z0].
  - exists 1. split; [lia|]. intros a. cbn [digits]. rewrite D, C. f_equal. rewrite Z.pow_1_r. lia.
  - destruct (IH (n / 10) (String (digit (n mod 10)) s) (div10_fuel _ _ H Z0) (log_fuel _ _ H Z0)) as (k & K & A). exists (k + 1). split; [lia|].
    intros a. rewrite A. cbn [digits]. rewrite D, C. f_equal. rewrite Z.pow_add_r, Z.pow_1_r by lia. lia.
Qed.
Lemma dec_aux_head f : forall n s, f <> O -> 0 <= n < 2 ^ Z.of_nat f -> exists c t, dec_aux f n s = String c t /\ is_dig c = true /\ (code c = 48 -> t = s).
Proof.
  induction f as [|f IH]; intros n s F H; [congruence|]. cbn [dec_aux].
  assert (M : 0 <= n mod 10 < 10) by (apply Z.mod_pos_bound; lia). destruct (code_digit _ M) as [D C].
  destruct (Z.eqb_spec (n / 10) 0) as [Z0|Z0].
  - eauto 10.
  - assert (G : forall f n s, f <> O -> 0 < n < 2 ^ Z.of_nat f -> exists c t, dec_aux f n s = String c t /\ is_dig c = true /\ code c <> 48).
    { clear. induction f as [|f IH]; intros n s F H; [congruence|]. cbn [dec_aux].
      assert (M : 0 <= n mod 10 < 10) by (apply Z.mod_pos_bound; lia). destruct (code_digit _ M) as [D C]. pose proof (Z.div_mod n 10 ltac:(lia)) as DM.
      destruct (Z.eqb_spec (n / 10) 0) as [Z0|Z0].
      - do 2 eexists. split; [reflexivity|]. split; [auto|]. lia.
      - assert (H' : 0 <= n < 2 ^ Z.of_nat (S f)) by lia. pose proof (log_fuel _ _ H' Z0). apply IH; [exact (div10_fuel _ _ H' Z0)|lia]. }
    pose proof (log_fuel _ _ H Z0) as LF. destruct (G f (n / 10) (String (digit (n mod 10)) s) (div10_fuel _ _ H Z0) ltac:(lia)) as (c & t & E1 & E2 & E3).
    exists c, t. split; [auto|]. split; [auto|]. congruence.
Qed.
Lemma dec_fuel n : 0 <= n -> 0 <= n < 2 ^ Z.of_nat (S (Z.to_nat (Z.log2 n))).
Proof.
  intros H. split; auto. rewrite Nat2Z.inj_succ, Z2Nat.id by apply Z.log2_nonneg.
  destruct (Z.eq_dec n 0) as [->|N]; [reflexivity|]. apply Z.log2_spec. lia.
Qed.
Lemma dec_aux_app f : forall n s r, (dec_aux f n s ++ r)%string = dec_aux f n (s ++ r)%string.
Proof. induction f as [|f IH]; intros; cbn [dec_aux]; [reflexivity|]. destruct (n / 10 =? 0); [reflexivity|]. rewrite IH. reflexivity. Qed.

Lemma digits_dec n r : 0 <= n -> digits (dec n ++ r)%string 0 = digits r n.
Proof.
  intros H. unfold dec. rewrite dec_aux_app. destruct (digits_dec_aux (S (Z.to_nat (Z.log2 n))) n ("" ++ r)%string (Nat.neq_succ_0 _) (dec_fuel n H)) as (k & _ & A).
  rewrite A. cbn [append]. reflexivity.
Qed.
Lemma digits_quiet r a : quiet r -> digits r a = (a, r).
Proof. destruct r as [|c r]; [reflexivity|]. intros [A _]. cbn. rewrite A. reflexivity. Qed.
Lemma number_dec n r : 0 <= n ->
  number (dec n ++ r)%string = match r with
    | "" => Some (VNum n "", "")
    | String c r' => if is_dig c then number (dec n ++ r)%string
        else if code c =? 46 then match digit_text r' with ("", _) => None | (t, q) => Some (VNum n t, q) end
        else Some (VNum n "", r) end.
Proof.
  intros H. assert (Q : (exists c q, r = String c q /\ is_dig c = true) \/ digits r n = (n, r)).
  { destruct r as [|c q]; [right; reflexivity|]. destruct (is_dig c) eqn:D; [left; eauto|right; cbn; rewrite D; reflexivity]. }
  destruct Q as [(c & q & -> & D)|Q]; [rewrite D; reflexivity|].
  assert (DD := digits_dec n r H).
  unfold dec in *. rewrite dec_aux_app in *. destruct (dec_aux_head (S (Z.to_nat (Z.log2 n))) n ("" ++ r)%string (Nat.neq_succ_0 _) (dec_fuel n H)) as (c & t & E1 & E2 & E3).
  rewrite E1 in *. unfold number at 1. rewrite E2. cbn [negb]. rewrite DD, Q.
  replace ((code c =? 48) && match t with "" => false | String d _ => is_dig d end) with false.
  - destruct r as [|p q]; [reflexivity|]. destruct (is_dig p) eqn:P; [|reflexivity]. cbn in Q. rewrite P in Q. exfalso.
    assert (L : forall q a, (String.length (snd (digits q a)) <= String.length q)%nat).
    { clear. induction q as [|c q IH]; intros a; cbn; [lia|]. destruct (is_dig c); [|cbn; lia]. specialize (IH (10 * a + (code c - 48))). lia. }
    specialize (L q (10 * n + (code p - 48))). rewrite Q in L. cbn in L. lia.
  - symmetry. apply andb_false_iff. destruct (Z.eqb_spec (code c) 48) as [C|C]; [right|left; reflexivity]. rewrite (E3 C). cbn [append].
    destruct r as [|p q]; [reflexivity|]. destruct (is_dig p) eqn:P; [|reflexivity]. exfalso. cbn in Q. rewrite P in Q.
    assert (L : forall q a, (String.length (snd (digits q a)) <= String.length q)%nat).
    { clear. induction q as [|c q IH]; intros a; cbn; [lia|]. destruct (is_dig c); [|cbn; lia]. specialize (IH (10 * a + (code c - 48))). lia. }
    specialize (L q (10 * n + (code p - 48))). rewrite Q in L. cbn in L. lia.
Qed.

(** *** strings *)
Lemma chars_escape_char c q : chars (escape_char c ++ q)%string = match chars q with Some (t, q') => Some (String c t, q') | None => None end.
Proof. destruct c as [b0 b1 b2 b3 b4 b5 b6 b7]. destruct b0, b1, b2, b3, b4, b5, b6, b7; reflexivity. Qed.
Lemma chars_escape s r : chars (escape s ++ dq ++ r)%string = Some (s, r).
Proof.
  induction s as [|c s IH]; [reflexivity|]. cbn [escape]. rewrite sapp_assoc, chars_escape_char, IH. reflexivity.
Qed.

Lemma chars_escape' s r : chars (escape s ++ String (ascii_of_nat 34) r)%string = Some (s, r).
Proof. exact (chars_escape s r). Qed.

(** *** values *)
Lemma value_ws f s s' : skip_ws s = skip_ws s' -> value f s = value f s'.
Proof. intros H. destruct f as [|f]; [reflexivity|]. cbn [value]. rewrite H. reflexivity. Qed.
Lemma members_ws f s s' : skip_ws s = skip_ws s' -> members f s = members f s'.
Proof. intros H. destruct f as [|f]; [reflexivity|]. cbn [members]. rewrite H. reflexivity. Qed.

Definition reads (j : json) : Prop := forall ind r f, jwf j -> (jsize j <= f)%nat -> quiet r -> value f (dump_at ind j ++ r)%string = Some (jval j, r).

(** a dumped value starts with a printable character that is none of ] , } *)
Definition starts (s : string) : Prop := exists c t, s = String c t /\ is_ws c = false /\ code c <> 93 /\ code c <> 125 /\ code c <> 44.
Lemma dump_starts j ind : jwf j -> starts (dump_at ind j).
Proof.
  destruct j as [|z|z|s|l|l]; cbn [dump_at]; intros W.
  - do 2 eexists; split; [reflexivity|]. repeat split; discriminate.
  - cbn in W. unfold dec. destruct (dec_aux_head (S (Z.to_nat (Z.log2 z))) z "" (Nat.neq_succ_0 _) (dec_fuel z W)) as (c & t & E1 & E2 & _). exists c, t. split; auto.
    unfold is_dig in E2. apply andb_true_iff in E2 as [A B]. apply Z.leb_le in A, B. repeat split; try lia. unfold is_ws.
    destruct (Z.eqb_spec (code c) 32), (Z.eqb_spec (code c) 10), (Z.eqb_spec (code c) 13), (Z.eqb_spec (code c) 9); cbn; auto; lia.
  - cbn in W. unfold dec. rewrite dec_aux_app. destruct (dec_aux_head (S (Z.to_nat (Z.log2 z))) z ("" ++ ".0")%string (Nat.neq_succ_0 _) (dec_fuel z W)) as (c & t & E1 & E2 & _). exists c, t. split; auto.
    unfold is_dig in E2. apply andb_true_iff in E2 as [A B]. apply Z.leb_le in A, B. repeat split; try lia. unfold is_ws.
    destruct (Z.eqb_spec (code c) 32), (Z.eqb_spec (code c) 10), (Z.eqb_spec (code c) 13), (Z.eqb_spec (code c) 9); cbn; auto; lia.
  - do 2 eexists; split; [reflexivity|]. repeat split; discriminate.
  - destruct l; do 2 eexists; (split; [reflexivity|]); repeat split; discriminate.
  - destruct l as [|[? ?] ?]; do 2 eexists; (split; [reflexivity|]); repeat split; discriminate.
Qed.
Lemma dec_starts z r : 0 <= z -> exists c t, (dec z ++ r)%string = String c t /\ is_dig c = true.
Proof.
  intros W. unfold dec. rewrite dec_aux_app. destruct (dec_aux_head (S (Z.to_nat (Z.log2 z))) z ("" ++ r)%string (Nat.neq_succ_0 _) (dec_fuel z W)) as (c & t & E1 & E2 & _). eauto.
Qed.
Lemma dig_facts c : is_dig c = true -> is_ws c = false /\ code c <> 34 /\ code c <> 91 /\ code c <> 123.
Proof.
  intros E2. unfold is_dig in E2. apply andb_true_iff in E2 as [A B]. apply Z.leb_le in A, B. repeat split; try lia. unfold is_ws.
  destruct (Z.eqb_spec (code c) 32), (Z.eqb_spec (code c) 10), (Z.eqb_spec (code c) 13), (Z.eqb_spec (code c) 9); cbn; auto; lia.
Qed.
Lemma value_digit f c t : is_dig c = true -> value (S f) (String c t) = number (String c t).
Proof.
  intros D. destruct (dig_facts c D) as (A & B & C & F). cbn [value skip_ws]. rewrite A.
  rewrite (proj2 (Z.eqb_neq _ _) B), (proj2 (Z.eqb_neq _ _) C), (proj2 (Z.eqb_neq _ _) F), D. reflexivity.
Qed.

Definition jitems (ind : nat) : list json -> string :=
  (fix go (l : list json) : string :=
  match l with
  | [] => ""
  | [x] => spaces (ind + 4) ++ dump_at (ind + 4) x
  | x :: l' => spaces (ind + 4) ++ dump_at (ind + 4) x ++ "," ++ nl ++ go l'
  end%string).
Definition jmembers (ind : nat) : list (string * json) -> string :=
  (fix go (l : list (string * json)) : string :=
  match l with
  | [] => ""
  | [(k, x)] => spaces (ind + 4) ++ quote k ++ ": " ++ dump_at (ind + 4) x
  | (k, x) :: l' => spaces (ind + 4) ++ quote k ++ ": " ++ dump_at (ind + 4) x ++ "," ++ nl ++ go l'
  end%string).
Lemma jitems_1 ind x : jitems ind [x] = (spaces (ind + 4) ++ dump_at (ind + 4) x)%string.
Proof. reflexivity. Qed.
Lemma jitems_2 ind x y l : jitems ind (x :: y :: l) = (spaces (ind + 4) ++ dump_at (ind + 4) x ++ "," ++ nl ++ jitems ind (y :: l))%string.
Proof. reflexivity. Qed.
Lemma jmembers_1 ind k x : jmembers ind [(k, x)] = (spaces (ind + 4) ++ quote k ++ ": " ++ dump_at (ind + 4) x)%string.
Proof. reflexivity. Qed.
Lemma jmembers_2 ind k x y l : jmembers ind ((k, x) :: y :: l) = (spaces (ind + 4) ++ quote k ++ ": " ++ dump_at (ind + 4) x ++ "," ++ nl ++ jmembers ind (y :: l))%string.
Proof. reflexivity. Qed.
Lemma dump_arr ind x l : dump_at ind (JArr (x :: l)) = ("[" ++ nl ++ jitems ind (x :: l) ++ nl ++ spaces ind ++ "]")%string.
Proof. reflexivity. Qed.
Lemma dump_obj ind x l : dump_at ind (JObj (x :: l)) = ("{" ++ nl ++ jmembers ind (x :: l) ++ nl ++ spaces ind ++ "}")%string.
Proof. reflexivity. Qed.

Definition lwf (l : list json) : Prop := Forall jwf l.
Fixpoint lsize (l : list json) : nat := match l with [] => O | x :: l' => S (jsize x) + lsize l' end.
Definition mwf (l : list (string * json)) : Prop := Forall (fun kx => jwf (snd kx)) l.
Fixpoint msize (l : list (string * json)) : nat := match l with [] => O | kx :: l' => S (jsize (snd kx)) + msize l' end.
Lemma jwf_arr l : jwf (JArr l) <-> lwf l.
Proof. induction l as [|x l IH]; cbn in *; split; intros H; try constructor; try tauto; inversion H; tauto. Qed.
Lemma jwf_obj l : jwf (JObj l) <-> mwf l.
Proof. induction l as [|x l IH]; cbn in *; split; intros H; try constructor; try tauto; inversion H; tauto. Qed.

Lemma quiet_nl r : quiet (nl ++ r)%string. Proof. split; [reflexivity|discriminate]. Qed.
Lemma quiet_comma r : quiet ("," ++ r)%string. Proof. split; [reflexivity|discriminate]. Qed.

Lemma quiet_comma' r : quiet (String "," r). Proof. exact (quiet_comma r). Qed.
Lemma elements_read l : Forall reads l -> forall ind r f, l <> [] -> lwf l -> (lsize l <= f)%nat ->
  elements f (jitems ind l ++ nl ++ spaces ind ++ "]" ++ r)%string = Some (map jval l, r).
Proof.
  induction l as [|x l IH]; [congruence|]. intros HR ind r f _ W F. inversion HR as [|? ? Hx Hl]; subst. inversion W as [|? ? Wx Wl]; subst.
  cbn [lsize] in F. destruct f as [|f]; [lia|]. cbn [elements]. destruct l as [|y l].
  - rewrite jitems_1, sapp_assoc. rewrite (value_ws f _ _ (skip_spaces _ _)). rewrite (Hx _ _ f Wx ltac:(lia) (quiet_nl _)).
    rewrite skip_nl, skip_spaces. reflexivity.
  - rewrite jitems_2.
    rewrite !sapp_assoc. rewrite (value_ws f _ _ (skip_spaces _ _)). rewrite (Hx _ _ f Wx ltac:(lia) (quiet_comma _)).
    cbn [append skip_ws]. change (is_ws ","%char) with false. cbv beta iota. change (code "," =? 93) with false. change (code "," =? 44) with true. cbv beta iota.
    assert (EW : forall s, elements f (nl ++ s)%string = elements f s).
    { intros s. destruct f as [|g]; [reflexivity|]. cbn [elements]. rewrite (value_ws g _ _ (skip_nl s)). reflexivity. }
    rewrite EW. assert (R : (lsize (y :: l) <= f)%nat) by (cbn [lsize] in *; lia).
    specialize (IH Hl ind r f ltac:(discriminate) Wl R). cbn [append] in IH. rewrite IH. reflexivity.
Qed.

Lemma members_read l : Forall (fun kx => reads (snd kx)) l -> forall ind r f, l <> [] -> mwf l -> (msize l <= f)%nat ->
  members f (jmembers ind l ++ nl ++ spaces ind ++ "}" ++ r)%string = Some (map (fun kx => (fst kx, jval (snd kx))) l, r).
Proof.
  induction l as [|[k x] l IH]; [congruence|]. intros HR ind r f _ W F. inversion HR as [|? ? Hx Hl]; subst. inversion W as [|? ? Wx Wl]; subst.
  cbn [msize snd] in *. destruct f as [|f]; [lia|]. destruct l as [|y l].
  - rewrite jmembers_1, sapp_assoc. rewrite (members_ws _ _ _ (skip_spaces _ _)). unfold quote. rewrite !sapp_assoc.
    cbn [members]. change (skip_ws (dq ++ ?x)%string) with (dq ++ x)%string. cbn [append dq].
    change (code (ascii_of_nat 34) =? 34) with true. cbv beta iota. rewrite chars_escape'. cbn [append skip_ws].
    change (is_ws ":"%char) with false. cbv beta iota. change (code ":" =? 58) with true. cbv beta iota.
    rewrite (value_ws f (String " " _) _ (skip_sp _)). rewrite (Hx _ _ f Wx ltac:(lia) (quiet_nl _)). rewrite skip_nl, skip_spaces. reflexivity.
  - rewrite jmembers_2.
    rewrite !sapp_assoc. rewrite (members_ws _ _ _ (skip_spaces _ _)). unfold quote. rewrite !sapp_assoc.
    cbn [members]. change (skip_ws (dq ++ ?x)%string) with (dq ++ x)%string. cbn [append dq].
    change (code (ascii_of_nat 34) =? 34) with true. cbv beta iota. rewrite chars_escape'. cbn [append skip_ws].
    change (is_ws ":"%char) with false. cbv beta iota. change (code ":" =? 58) with true. cbv beta iota.
    rewrite (value_ws f (String " " _) _ (skip_sp _)). rewrite (Hx _ _ f Wx ltac:(lia) (quiet_comma' _)).
    cbn [append skip_ws]. change (is_ws ","%char) with false. cbv beta iota. change (code "," =? 125) with false. change (code "," =? 44) with true. cbv beta iota.
    rewrite (members_ws _ _ _ (skip_nl _)). assert (R : (msize (y :: l) <= f)%nat) by (cbn [msize] in *; lia).
    specialize (IH Hl ind r f ltac:(discriminate) Wl R). cbn [append] in IH. rewrite IH. reflexivity.
Qed.

Lemma jitems_starts ind x l : jwf x -> starts (skip_ws (jitems ind (x :: l))).
Proof.
  intros W. destruct (dump_starts x (ind + 4) W) as (c & t & E1 & A). destruct l; rewrite ?jitems_1, ?jitems_2, skip_spaces, E1; cbn [append skip_ws]; rewrite (proj1 A); do 2 eexists; split; eauto.
Qed.
Lemma skip_app s r : starts (skip_ws s) -> skip_ws (s ++ r)%string = (skip_ws s ++ r)%string.
Proof.
  induction s as [|c s IH]; [intros (c & t & H & _); discriminate|]. cbn. destruct (is_ws c); auto.
Qed.

Lemma reads_all j : reads j.
Proof.
  induction j using json_all; intros ind r f W F Q.
  - destruct f; [cbn in F; lia|].
    assert (L : literal ("null" ++ r)%string = Some (VNull, r)).
    { unfold literal. replace (String.prefix "null" ("null" ++ r)%string) with true by (destruct r; reflexivity).
      cbn [append String.length]. replace (S (S (S (S (String.length r)))) - 4)%nat with (String.length r) by lia.
      cbn [substring]. replace (substring 0 (String.length r) r) with r; [reflexivity|]. clear. induction r; cbn; congruence. }
    exact L.
  - destruct f; [cbn in F; lia|]. cbn [dump_at]. cbn in W. destruct (dec_starts z r W) as (c & t & E1 & D). pose proof (number_dec z r W) as N. rewrite E1, value_digit by auto.
    rewrite E1 in N. rewrite N. destruct r as [|p q]; [reflexivity|]. destruct Q as [A B]. rewrite A. rewrite (proj2 (Z.eqb_neq _ _) B). reflexivity.
  - destruct f; [cbn in F; lia|]. cbn [dump_at]. cbn in W. rewrite sapp_assoc. destruct (dec_starts z (".0" ++ r)%string W) as (c & t & E1 & D). pose proof (number_dec z (".0" ++ r)%string W) as N. rewrite E1, value_digit by auto.
    rewrite E1 in N. rewrite N. cbn [append]. change (is_dig ".") with false. change (code "." =? 46) with true. cbv beta iota.
    cbn [digit_text]. change (is_dig "0") with true. cbv beta iota. replace (digit_text r) with ("", r); [reflexivity|].
    destruct r as [|p q]; [reflexivity|]. destruct Q as [A B]. cbn. rewrite A. reflexivity.
  - destruct f; [cbn in F; lia|]. cbn [dump_at]. unfold quote. rewrite !sapp_assoc. cbn [value]. change (skip_ws (dq ++ ?x)%string) with (dq ++ x)%string. cbn [append dq].
    change (code (ascii_of_nat 34) =? 34) with true. cbv beta iota. rewrite chars_escape'. reflexivity.
  - destruct f; [cbn in F; lia|]. destruct l as [|x l]; [reflexivity|]. rewrite dump_arr. rewrite !sapp_assoc. apply jwf_arr in W.
    cbn [value append skip_ws]. change (is_ws "["%char) with false. cbv beta iota. change (code "[" =? 34) with false. change (code "[" =? 91) with true. cbv beta iota.
    inversion W as [|? ? Wx Wl]; subst. pose proof (jitems_starts ind x l Wx) as ST. rewrite skip_nl, (skip_app _ _ ST). destruct ST as (c & t & E1 & A1 & A2 & A3 & A4). rewrite E1. cbn [append].
    rewrite (proj2 (Z.eqb_neq _ _) A2). 
    assert (EW : forall s, elements f (nl ++ s)%string = elements f s).
    { intros s. destruct f as [|g]; [reflexivity|]. cbn [elements]. rewrite (value_ws g _ _ (skip_nl s)). reflexivity. }
    rewrite EW. change (jsize (JArr (x :: l))) with (S (lsize (x :: l))) in F.
    pose proof (elements_read (x :: l) H ind r f ltac:(discriminate) W ltac:(lia)) as R. cbn [append] in R. rewrite R. reflexivity.
  - destruct f; [cbn in F; lia|]. destruct l as [|[k x] l]; [reflexivity|]. rewrite dump_obj. rewrite !sapp_assoc. apply jwf_obj in W.
    cbn [value append skip_ws]. change (is_ws "{"%char) with false. cbv beta iota. change (code "{" =? 34) with false. change (code "{" =? 91) with false. change (code "{" =? 123) with true. cbv beta iota.
    assert (ST : exists t, skip_ws (jmembers ind ((k, x) :: l)) = String (ascii_of_nat 34) t).
    { destruct l as [|y l]; rewrite ?jmembers_1, ?jmembers_2, skip_spaces; unfold quote; cbn [append dq skip_ws]; eexists; reflexivity. }
    destruct ST as [t ST]. rewrite skip_nl, skip_app by (rewrite ST; do 2 eexists; split; [reflexivity|]; repeat split; discriminate). rewrite ST. cbn [append].
    change (code (ascii_of_nat 34) =? 125) with false. cbv beta iota.
    rewrite (members_ws f _ _ (skip_nl _)). change (jsize (JObj ((k, x) :: l))) with (S (msize ((k, x) :: l))) in F.
    pose proof (members_read ((k, x) :: l) H ind r f ltac:(discriminate) W ltac:(lia)) as R. cbn [append] in R. rewrite R. reflexivity.
Qed.

Lemma starts_len s : starts s -> (1 <= String.length s)%nat.
Proof. intros (c & t & -> & _). cbn. lia. Qed.
Lemma size_len j : forall ind, jwf j -> (jsize j <= 2 * String.length (dump_at ind j))%nat.
Proof.
  induction j using json_all; intros ind W; try (pose proof (starts_len _ (dump_starts _ ind W)); cbn [jsize]; lia).
  - destruct l as [|x l]; [cbn; lia|]. apply jwf_arr in W. rewrite dump_arr. rewrite !slen_app. change (jsize (JArr (x :: l))) with (S (lsize (x :: l))).
    assert (X : forall l, l <> [] -> Forall (fun j => forall ind, jwf j -> (jsize j <= 2 * String.length (dump_at ind j))%nat) l -> lwf l -> (lsize l <= 2 * String.length (jitems ind l) + 1)%nat).
    { clear. induction l as [|x l IH]; [congruence|]. intros _ H W. inversion H as [|? ? Hx Hl]; subst. inversion W as [|? ? Wx Wl]; subst.
      specialize (Hx (ind + 4)%nat Wx). destruct l as [|y l].
      - cbn [lsize]. rewrite jitems_1, slen_app. lia.
      - rewrite jitems_2. rewrite !slen_app. cbn [String.length nl].
        specialize (IH ltac:(discriminate) Hl Wl). change (lsize (x :: y :: l)) with (S (jsize x) + lsize (y :: l))%nat. lia. }
    specialize (X (x :: l) ltac:(discriminate) H W). cbn [String.length nl]. lia.
  - destruct l as [|x l]; [cbn; lia|]. apply jwf_obj in W. rewrite dump_obj. rewrite !slen_app. change (jsize (JObj (x :: l))) with (S (msize (x :: l))).
    assert (X : forall l, l <> [] -> Forall (fun kx : string * json => forall ind, jwf (snd kx) -> (jsize (snd kx) <= 2 * String.length (dump_at ind (snd kx)))%nat) l -> mwf l -> (msize l <= 2 * String.length (jmembers ind l) + 1)%nat).
    { clear. induction l as [|[k x] l IH]; [congruence|]. intros _ H W. inversion H as [|? ? Hx Hl]; subst. inversion W as [|? ? Wx Wl]; subst. cbn [snd] in *.
      specialize (Hx (ind + 4)%nat Wx). destruct l as [|y l].
      - cbn [msize snd]. rewrite jmembers_1, !slen_app. lia.
      - rewrite jmembers_2. rewrite !slen_app. cbn [String.length nl].
        specialize (IH ltac:(discriminate) Hl Wl). change (msize ((k, x) :: y :: l)) with (S (jsize x) + msize (y :: l))%nat. lia. }
    specialize (X (x :: l) ltac:(discriminate) H W). cbn [String.length nl]. lia.
Qed.

Lemma text_bytes s : bytes_text (bytes_of_string s) = s.
Proof.
  unfold bytes_text, bytes_of_string. rewrite map_map. rewrite (map_ext _ (fun c => c)).
  - rewrite map_id. apply string_of_list_ascii_of_string.
  - intros c. rewrite Nat2Z.id. apply ascii_nat_embedding.
Qed.

Theorem dump_reads j : jwf j -> json_of (bytes_of_string (dump j)) = Some (jval j).
Proof.
  intros W. unfold json_of. rewrite text_bytes. pose proof (reads_all j O "" (S (2 * String.length (dump j))) W) as R.
  assert (A : (dump_at 0 j ++ "")%string = dump j). { unfold dump. generalize (dump_at 0 j). induction s; cbn; congruence. }
  rewrite A in R. rewrite R; [reflexivity| |exact I]. pose proof (size_len j O W). unfold dump. lia.
Qed.
