(** Trimming and settings validation. *)
Require Import ZArith List Bool String Ascii Lia.
Require Import Verif.Base Verif.Dim Verif.Radix Verif.World Verif.Stream Verif.SettingsSpec.
Import ListNotations.
Open Scope string_scope.
Open Scope list_scope.
Open Scope Z_scope.

Lemma isspace_white c : isspace c = true <-> white c.
Proof.
  unfold isspace, white. set (n := nat_of_ascii c). rewrite orb_true_iff, andb_true_iff, Nat.eqb_eq, !Nat.leb_le. simpl. lia.
Qed.
Lemma isspace_not c : isspace c = false <-> ~ white c.
Proof. rewrite <- isspace_white. destruct (isspace c); split; congruence || tauto. Qed.

Lemma drop_spaces_split l : exists a, l = a ++ drop_spaces l /\ Forall white a /\
  (forall c t, drop_spaces l = c :: t -> ~ white c).
Proof.
  induction l as [|c l (a & H1 & H2 & H3)]; simpl.
  - exists []. repeat split; auto. congruence.
  - destruct (isspace c) eqn:E.
    + exists (c :: a). split; [simpl; congruence|]. split; [constructor; auto; apply isspace_white; auto|auto].
    + exists []. repeat split; auto. intros c' t H. inversion H; subst. apply isspace_not; auto.
Qed.

Lemma ascii_app a b : list_ascii_of_string (a ++ b) = list_ascii_of_string a ++ list_ascii_of_string b.
Proof. induction a; simpl; congruence. Qed.
Lemma string_app a b : string_of_list_ascii (a ++ b) = (string_of_list_ascii a ++ string_of_list_ascii b)%string.
Proof. induction a; simpl; congruence. Qed.

Lemma trim_spec s : trimmed_to s (trim s).
Proof.
  unfold trim. set (l := list_ascii_of_string s).
  destruct (drop_spaces_split l) as (a & A1 & A2 & A3).
  destruct (drop_spaces_split (rev (drop_spaces l))) as (b & B1 & B2 & B3).
  set (d := drop_spaces l) in *. set (e := drop_spaces (rev d)) in *.
  assert (Hd : d = rev e ++ rev b) by (rewrite <- rev_app_distr, <- B1, rev_involutive; auto).
  exists (string_of_list_ascii a), (string_of_list_ascii (rev b)). repeat split.
  - rewrite <- !string_app, <- Hd, <- A1. unfold l. rewrite string_of_list_ascii_of_string. auto.
  - unfold all_white. rewrite list_ascii_of_string_of_list_ascii. auto.
  - unfold all_white. rewrite list_ascii_of_string_of_list_ascii. apply Forall_rev; auto.
  - intros c t' H. destruct (rev e) as [|c0 re] eqn:Er; simpl in H; [discriminate|]. inversion H; subst c0.
    apply (A3 c (re ++ rev b)). rewrite Hd. reflexivity.
  - intros c t' H. apply (f_equal list_ascii_of_string) in H.
    rewrite list_ascii_of_string_of_list_ascii, ascii_app in H. simpl in H.
    apply (f_equal (@rev ascii)) in H. rewrite rev_involutive, rev_app_distr in H. simpl in H. eapply B3. exact H.
Qed.

Lemma app_white_unique (l l' t t' r r' : list ascii) :
  l ++ t ++ r = l' ++ t' ++ r' -> Forall white l -> Forall white l' -> Forall white r -> Forall white r' ->
  (forall c u, t = c :: u -> ~ white c) -> (forall c u, t' = c :: u -> ~ white c) ->
  (forall c u, t = u ++ [c] -> ~ white c) -> (forall c u, t' = u ++ [c] -> ~ white c) -> t = t'.
Proof.
  intros H Hl Hl' Hr Hr' F1 F2 L1 L2.
  (* no visible character in t: t = [] *)
  assert (Hnil : forall t : list ascii, (forall c u, t = c :: u -> ~ white c) -> Forall white t -> t = []).
  { intros u Hu Hw. destruct u as [|c u]; auto. inversion Hw; subst. exfalso. eapply Hu; eauto. }
  assert (Hsuf : forall (l l' u u' : list ascii), l ++ u = l' ++ u' -> Forall white l -> Forall white l' ->
     (forall c v, u = c :: v -> ~ white c) -> (forall c v, u' = c :: v -> ~ white c) -> u = u').
  { clear. induction l as [|a l IH]; intros l' u u' H Hl Hl' F1 F2.
    - destruct l' as [|a' l']; auto. simpl in H. subst u. inversion Hl'; subst. exfalso. eapply F1; eauto.
    - destruct l' as [|a' l']; simpl in H.
      + subst u'. inversion Hl; subst. exfalso. eapply F2; eauto.
      + inversion H; subst. inversion Hl; inversion Hl'; subst. eapply IH; eauto. }
  destruct t as [|c t0] eqn:Et.
  - assert (Hall : Forall white (l' ++ t' ++ r')) by (rewrite <- H; apply Forall_app; split; auto).
    apply Forall_app in Hall as [_ Hall]. apply Forall_app in Hall as [Hall _]. symmetry. apply Hnil; auto.
  - destruct t' as [|c' t0'] eqn:Et'.
    + assert (Hall : Forall white (l ++ (c :: t0) ++ r)) by (rewrite H; apply Forall_app; split; auto).
      apply Forall_app in Hall as [_ Hall]. apply Forall_app in Hall as [Hall _]. apply Hnil; auto.
    + rewrite <- Et, <- Et' in *.
      assert (E1 : t ++ r = t' ++ r').
      { apply (Hsuf l l'); auto; subst t t'; intros c1 v Hv; simpl in Hv; inversion Hv; subst; eauto. }
      apply (f_equal (@rev ascii)) in E1. rewrite !rev_app_distr in E1.
      assert (E2 : rev t = rev t').
      { apply (Hsuf (rev r) (rev r')); auto using Forall_rev.
        - intros c1 v Hv. apply (L1 c1 (rev v)). apply (f_equal (@rev ascii)) in Hv. rewrite rev_involutive in Hv. simpl in Hv. auto.
        - intros c1 v Hv. apply (L2 c1 (rev v)). apply (f_equal (@rev ascii)) in Hv. rewrite rev_involutive in Hv. simpl in Hv. auto. }
      rewrite <- (rev_involutive t), <- (rev_involutive t'). congruence.
Qed.

Lemma trimmed_unique s t t' : trimmed_to s t -> trimmed_to s t' -> t = t'.
Proof.
  intros (l & r & H1 & H2 & H3 & H4 & H5) (l' & r' & H1' & H2' & H3' & H4' & H5').
  rewrite <- (string_of_list_ascii_of_string t), <- (string_of_list_ascii_of_string t'). f_equal.
  assert (E := f_equal list_ascii_of_string (eq_trans (eq_sym H1) H1')). rewrite !ascii_app in E.
  assert (C1 : forall t : string, (forall c t', t = String c t' -> ~ white c) -> forall c u, list_ascii_of_string t = c :: u -> ~ white c).
  { intros x Hx c u Hu. apply (Hx c (string_of_list_ascii u)). rewrite <- (string_of_list_ascii_of_string x), Hu. reflexivity. }
  assert (C2 : forall t : string, (forall c t', t = (t' ++ String c "")%string -> ~ white c) -> forall c u, list_ascii_of_string t = u ++ [c] -> ~ white c).
  { intros x Hx c u Hu. apply (Hx c (string_of_list_ascii u)). rewrite <- (string_of_list_ascii_of_string x), Hu, string_app. reflexivity. }
  eapply (app_white_unique (list_ascii_of_string l) (list_ascii_of_string l') _ _ (list_ascii_of_string r) (list_ascii_of_string r')); eauto.
Qed.

Lemma trim_idempotent s : trim (trim s) = trim s.
Proof.
  apply (trimmed_unique (trim s)); [apply trim_spec|].
  destruct (trim_spec s) as (l & r & _ & _ & _ & H4 & H5). exists "", "". repeat split; auto; try constructor.
  simpl. generalize (trim s). clear. induction s; simpl; congruence.
Qed.

Lemma trim_blank s : trim s = "" <-> all_white s.
Proof.
  destruct (trim_spec s) as (l & r & H1 & H2 & H3 & H4 & H5). split.
  - intros E. rewrite H1, E. simpl. unfold all_white. rewrite ascii_app. apply Forall_app; auto.
  - intros Hw. destruct (trim s) as [|c t] eqn:E; auto. exfalso. apply (H4 c t); auto.
    unfold all_white in Hw. rewrite H1 in Hw. rewrite !ascii_app in Hw. apply Forall_app in Hw as [_ Hw].
    apply Forall_app in Hw as [Hw _]. simpl in Hw. inversion Hw; auto.
Qed.

Lemma is_empty_string_spec s b : is_empty_string (Some s) = Ok b -> (b = true <-> all_white s).
Proof.
  unfold is_empty_string. intros H. inversion H. rewrite String.eqb_eq. apply trim_blank.
Qed.

Lemma empty_visible o : o <> None -> exists b, is_empty_string o = Ok b /\ (b = false <-> visible o).
Proof.
  destruct o as [s|]; [|congruence]. intros _. eexists. split; [reflexivity|].
  unfold visible. split.
  - intros H. exists s. split; auto. intros Hw. apply trim_blank in Hw. rewrite Hw in H. discriminate.
  - intros (s' & E & H). inversion E; subst. destruct (String.eqb_spec (trim s') ""); auto. exfalso. apply H, trim_blank; auto.
Qed.

Lemma validate_s3_spec x :
  x_endpoint x <> None -> x_key x <> None -> x_secret x <> None -> x_bucket x <> None ->
  exists b, validate_s3 x = Ok b /\ (b = true <-> s3_documented x).
Proof.
  intros H1 H2 H3 H4. unfold validate_s3, s3_documented.
  destruct (empty_visible _ H1) as (b1 & -> & V1). destruct (empty_visible _ H2) as (b2 & -> & V2).
  destruct (empty_visible _ H3) as (b3 & -> & V3). cbn [obind].
  destruct b1; [exists false; split; auto; split; [discriminate|intros (X & _); apply V1 in X; discriminate]|].
  destruct b2; [exists false; split; auto; split; [discriminate|intros (_ & X & _); apply V2 in X; discriminate]|].
  destruct b3; [exists false; split; auto; split; [discriminate|intros (_ & _ & X & _); apply V3 in X; discriminate]|].
  destruct (x_bucket x) as [b|]; [|congruence]. eexists. split; [reflexivity|].
  rewrite negb_true_iff, orb_false_iff, !Z.ltb_ge. split.
  - intros H. repeat split; try (apply V1 || apply V2 || apply V3); auto.
    exists b, (trim b). split; auto. split; [apply trim_spec|lia].
  - intros (_ & _ & _ & b' & t & E & Ht & Hl). inversion E; subst b'.
    rewrite (trimmed_unique _ _ _ (trim_spec b) Ht). lia.
Qed.

Lemma validate_dims_spec v l : forall ap, (forall d, In d l -> u_name d <> None) -> (forall d, In d l -> 0 <= u_type d) ->
  exists b, validate_dims v ap l = Ok b /\
    (b = true <-> forall i d, nth_error l i = Some d -> dimension_documented v (ap = true /\ i = O) d).
Proof.
  induction l as [|d l IH]; intros ap Hn Ht; simpl.
  - exists true. split; auto. split; auto. intros _ i d H. destruct i; discriminate.
  - unfold validate_dimension. destruct (empty_visible (u_name d)) as (b & -> & Vb); [apply Hn; left; auto|]. cbn [obind].
    assert (Hd : 0 <= u_type d) by (apply Ht; left; auto).
    set (ok := if b then false else (u_type d <? ty_count) && negb (negb ap && (u_array d =? 0)) && negb (u_chunk d =? 0) && negb ((v =? 3) && (u_shard d =? 0))).
    replace (if b then Ok false else _) with (@Ok bool ok) by (unfold ok; destruct b; auto). cbn [obind].
    assert (Hok : ok = true <-> dimension_documented v (ap = true /\ O = O) d).
    { unfold ok, dimension_documented. rewrite <- Vb. destruct b; [split; [discriminate|intros (X & _); discriminate]|].
      rewrite !andb_true_iff, !negb_true_iff, !andb_false_iff, negb_false_iff, Z.ltb_lt, !Z.eqb_neq. unfold ty_count.
      split.
      - intros (((A1 & A2) & A3) & A4). repeat split; auto; try lia; try tauto; try (intros ->; destruct A4; congruence).
      - intros (_ & A1 & A2 & A3 & A4). repeat split; auto; try lia; try tauto. }
    destruct ok.
    + destruct (IH false) as (b' & R1 & R2); [intros; apply Hn; right; auto|intros; apply Ht; right; auto|].
      exists b'. split; auto. rewrite R2. split.
      * intros H i e He. destruct i as [|i]; simpl in He.
        { inversion He; subst. apply Hok; auto. }
        { specialize (H i e He). unfold dimension_documented in *. intuition discriminate. }
      * intros H i e He. specialize (H (S i) e He). unfold dimension_documented in *. intuition discriminate.
    + exists false. split; auto. split; [discriminate|]. intros H. apply Hok. apply (H O d). reflexivity.
Qed.

Lemma validate_compression_spec c : 0 <= cs_compressor c -> 0 <= cs_codec c -> 0 <= cs_level c -> 0 <= cs_shuffle c ->
  (validate_compression c = true <-> compression_documented c).
Proof.
  intros H1 H2 H3 H4. unfold validate_compression, compression_documented.
  rewrite !andb_true_iff, !orb_true_iff, negb_true_iff, andb_false_iff, negb_false_iff, !Z.ltb_lt, Z.leb_le, !Z.eqb_eq, Z.eqb_neq. lia.
Qed.

Lemma last_two {A} (l : list A) d : (3 <= List.length l)%nat ->
  exists init, l = init ++ [nth (List.length l - 2) l d; nth (List.length l - 1) l d] /\ init <> [].
Proof.
  intros H. destruct (@exists_last _ l) as (l1 & x & E1); [destruct l; [simpl in H; lia|discriminate]|].
  subst l. rewrite app_length in *. simpl in *.
  destruct (@exists_last _ l1) as (l2 & y & E2); [destruct l1; [simpl in H; lia|discriminate]|].
  subst l1. rewrite app_length in *. simpl in *. exists l2.
  rewrite <- app_assoc. simpl. split.
  - f_equal. f_equal.
    + rewrite app_nth2 by lia. replace (_ - _)%nat with O by lia. reflexivity.
    + f_equal. rewrite app_nth2 by lia. replace (_ - _)%nat with 1%nat by lia. reflexivity.
  - intros ->. simpl in H. lia.
Qed.

Lemma validate_settings_spec E w st : typed st -> strings_present st ->
  exists b, validate_settings E w (Some st) = Ok b /\ (b = true <-> documented E w st).
Proof.
  intros (T1 & T2 & T3 & T4) (P1 & P2). unfold validate_settings, documented.
  destruct ((st_version st <? 2) || (4 <=? st_version st)) eqn:Ev.
  { exists false. split; auto. split; [discriminate|]. intros (X & _). rewrite orb_true_iff, Z.ltb_lt, Z.leb_le in Ev. lia. }
  apply orb_false_iff in Ev as [Ev1 Ev2]. apply Z.ltb_ge in Ev1. apply Z.leb_gt in Ev2.
  destruct (st_path st) as [p|]; [|exists false; split; auto; split; [discriminate|intros (_ & (p & X & _) & _); discriminate]].
  destruct (String.eqb_spec p "") as [Ep|Ep].
  { exists false. split; auto. split; [discriminate|]. intros (_ & (p' & X & Y & _) & _). congruence. }
  assert (Hstore : exists b, (match st_s3 st with Some x => validate_s3 x | None => Ok (validate_filesystem E w p) end) = Ok b
     /\ (b = true <-> match st_s3 st with Some x => s3_documented x | None => path_documented E w p end)).
  { destruct (st_s3 st) as [x|].
    - destruct (P1 x eq_refl) as (? & ? & ? & ?). apply validate_s3_spec; auto.
    - eexists. split; [reflexivity|]. unfold validate_filesystem, path_documented, parent_ok.
      rewrite andb_true_iff, orb_true_iff, String.eqb_eq. tauto. }
  destruct Hstore as (b & -> & Hb). cbn [obind].
  destruct b; cbn [negb].
  2:{ exists false. split; auto. split; [discriminate|]. intros (_ & (p' & X & _ & Y) & _). inversion X; subst. apply Hb; auto. }
  destruct (Z.leb_spec dt_count (st_dtype st)) as [Hd|Hd]; unfold dt_count in Hd.
  { exists false. split; auto. split; [discriminate|]. intros (_ & _ & X & _). lia. }
  destruct (match st_comp st with Some c => validate_compression c | None => true end) eqn:Ec; cbn [negb].
  2:{ exists false. split; auto. split; [discriminate|]. intros (_ & _ & _ & X & _). destruct (st_comp st) as [c|]; [|discriminate].
      destruct (T3 c eq_refl) as (? & ? & ? & ?). specialize (X c eq_refl). apply validate_compression_spec in X; auto. congruence. }
  destruct (validate_custom E (st_meta st)) eqn:Em; cbn [negb].
  2:{ exists false. split; auto. split; [discriminate|]. intros (_ & _ & _ & _ & X & _). unfold validate_custom in Em.
      destruct (st_meta st) as [m|]; [|discriminate]. apply orb_false_iff in Em as [Em1 Em2]. apply String.eqb_neq in Em1.
      destruct (X m eq_refl) as [Y|(t & Y)]; [congruence|]. rewrite Y in Em2. discriminate. }
  destruct (st_dims st) as [l|] eqn:El.
  2:{ exists false. split; auto. split; [discriminate|]. intros (_ & _ & _ & _ & _ & (l & i & y & x & X & _)). discriminate. }
  destruct (Nat.ltb_spec (List.length l) 3) as [Hl|Hl].
  { exists false. split; auto. split; [discriminate|]. intros (_ & _ & _ & _ & _ & (l' & i & y & x & X & Y & Z & _)). inversion X; subst l l'.
    rewrite app_length in Hl. simpl in Hl. destruct i; [congruence|simpl in Hl; lia]. }
  destruct (last_two l udim0 Hl) as (init & Ei & Hi).
  set (y := nth (List.length l - 2) l udim0) in *. set (x := nth (List.length l - 1) l udim0) in *.
  assert (Huniq : forall init' y' x', l = init' ++ [y'; x'] -> y' = y /\ x' = x).
  { intros i' y' x' E'. rewrite Ei in E'. change [y; x] with ([y] ++ [x]) in E'. change [y'; x'] with ([y'] ++ [x']) in E'.
    rewrite !app_assoc in E'. apply app_inj_tail in E' as [E' ?]. apply app_inj_tail in E' as [_ ?]. auto. }
  destruct (Z.eqb_spec (u_type x) ty_space) as [Hx|Hx]; cbn [negb].
  2:{ exists false. split; auto. split; [discriminate|]. intros (_ & _ & _ & _ & _ & (l' & i & y' & x' & X & Y & _ & _ & Z & _)). injection X as <-.
      destruct (Huniq _ _ _ Y) as [-> ->]. congruence. }
  destruct (Z.eqb_spec (u_type y) ty_space) as [Hy|Hy]; cbn [negb].
  2:{ exists false. split; auto. split; [discriminate|]. intros (_ & _ & _ & _ & _ & (l' & i & y' & x' & X & Y & _ & Z & _)). injection X as <-.
      destruct (Huniq _ _ _ Y) as [-> ->]. congruence. }
  destruct (validate_dims_spec (st_version st) l true) as (b & Rb & Hb').
  { intros d Hin. eapply P2; eauto. }
  { intros d Hin. eapply T4; eauto. }
  exists b. split; auto. rewrite Hb'.
  assert (Heq : (forall i d, nth_error l i = Some d -> dimension_documented (st_version st) (true = true /\ i = O) d)
             <-> (forall i d, nth_error l i = Some d -> dimension_documented (st_version st) (i = O) d)).
  { split; intros H i d Hn; specialize (H i d Hn); unfold dimension_documented in *; tauto. }
  rewrite Heq. split.
  - intros H. split; [lia|]. split; [exists p; split; auto; split; auto; apply Hb; auto|]. split; [lia|].
    split. { intros c Hc. rewrite Hc in Ec. destruct (T3 c Hc) as (? & ? & ? & ?). apply validate_compression_spec; auto. }
    split. { intros m Hm. rewrite Hm in Em. unfold validate_custom in Em. apply orb_true_iff in Em as [Em|Em]; [left; apply String.eqb_eq; auto|right].
             destruct (e_parse E m) as [t|]; [exists t; auto|discriminate]. }
    exists l, init, y, x. split; [auto|]. split; [auto|]. split; [auto|]. split; [auto|]. split; [auto|exact H].
  - intros (_ & _ & _ & _ & _ & (l' & i & y' & x' & X & Y & _ & _ & _ & Z)). injection X as <-. auto.
Qed.

Lemma new_stream_valid E o w s w' : new_stream E o w = (w', Ok s) -> exists st, o = Some st /\ validate_settings E w o = Ok true.
Proof.
  unfold new_stream. destruct (validate_settings E w o) as [b| | |] eqn:Ev; try (intros H; inversion H; fail).
  destruct o as [st|]; [|destruct b; intros H; inversion H]. destruct b; [|intros H; inversion H]. intros _. exists st. auto.
Qed.
Lemma new_stream_invalid E o w : validate_settings E w o = Ok false -> new_stream E o w = (w, Throw "Invalid Zarr stream settings").
Proof. unfold new_stream. intros ->. destruct o; reflexivity. Qed.
