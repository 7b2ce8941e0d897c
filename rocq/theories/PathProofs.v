(** Decimal printing, path joining and the list of data paths. *)
Require Import ZArith List Bool String Ascii Lia Zify.
Require Import Verif.Base Verif.Spec Verif.Dim Verif.Radix Verif.Limits Verif.DimProofs Verif.World.
Import ListNotations.
Open Scope list_scope.
Open Scope Z_scope.
Open Scope string_scope.

(** ** strings *)
Lemma sapp_assoc (a b c : string) : (a ++ b) ++ c = a ++ (b ++ c).
Proof. induction a; simpl; congruence. Qed.
Lemma sapp_nil_r (a : string) : a ++ "" = a.
Proof. induction a; simpl; congruence. Qed.
Lemma sapp_inj_l (a b c : string) : a ++ b = a ++ c -> b = c.
Proof. induction a; simpl; auto. intros H; inversion H; auto. Qed.
Lemma slength_app (a b : string) : String.length (a ++ b) = (String.length a + String.length b)%nat.
Proof. induction a; simpl; auto. Qed.
Lemma sapp_inj_r (a b c : string) : a ++ c = b ++ c -> a = b.
Proof.
  revert b; induction a; intros [|x b]; simpl; intros H; auto.
  - exfalso. assert (X : String.length c = String.length (String x (b ++ c))) by (rewrite <- H; auto).
    simpl in X. rewrite slength_app in X. lia.
  - exfalso. assert (X : String.length c = String.length (String a (a0 ++ c))) by (rewrite H; auto).
    simpl in X. rewrite slength_app in X. lia.
  - inversion H. f_equal; auto.
Qed.
Lemma las_app a b : list_ascii_of_string (a ++ b) = (list_ascii_of_string a ++ list_ascii_of_string b)%list.
Proof. induction a; simpl; congruence. Qed.
Lemma las_inj a b : list_ascii_of_string a = list_ascii_of_string b -> a = b.
Proof. intros H. rewrite <- (string_of_list_ascii_of_string a), H. apply string_of_list_ascii_of_string. Qed.
Lemma prefix_app a b : String.prefix a (a ++ b) = true.
Proof. induction a as [|x a IH]; simpl; [destruct b; auto|]. destruct (ascii_dec x x) as [|n]; [auto|]. exfalso; apply n; auto. Qed.
Lemma prefix_spec a b : String.prefix a b = true -> exists c, b = a ++ c.
Proof.
  revert b; induction a as [|x a IH]; intros b H; [exists b; auto|].
  destruct b as [|y b]; [discriminate H|]. cbn [String.prefix] in H. destruct (ascii_dec x y) as [->|]; [|discriminate H].
  destruct (IH _ H) as [c ->]. exists c; auto.
Qed.

(** characters of a string satisfy P *)
Definition all_chars (P : ascii -> Prop) (s : string) : Prop := Forall P (list_ascii_of_string s).
Lemma all_chars_app P a b : all_chars P (a ++ b) <-> all_chars P a /\ all_chars P b.
Proof. unfold all_chars. rewrite las_app. apply Forall_app. Qed.

(** ** decimal *)
Definition is_digit (c : ascii) : Prop := (48 <= nat_of_ascii c <= 57)%nat.
Lemma digit_val d : 0 <= d < 10 -> nat_of_ascii (digit d) = (48 + Z.to_nat d)%nat.
Proof. intros. unfold digit. apply nat_ascii_embedding. lia. Qed.

Fixpoint undec (acc : Z) (l : list ascii) : Z :=
  match l with [] => acc | c :: l' => undec (acc * 10 + (Z.of_nat (nat_of_ascii c) - 48)) l' end.
Lemma undec_app acc l m : undec acc (l ++ m)%list = undec (undec acc l) m.
Proof. revert acc; induction l; simpl; auto. Qed.

Lemma dec_aux_app f n acc : exists s, dec_aux f n acc = s ++ acc
   /\ all_chars is_digit s /\ (0 <= n -> n < 2 ^ Z.of_nat f -> undec 0 (list_ascii_of_string s) = n)
   /\ (f <> O -> s <> "").
Proof.
  revert n acc; induction f; intros n acc.
  - exists "". repeat split; [constructor| |congruence]. intros. simpl in *. change (2 ^ Z.of_nat 0) with 1 in *. lia.
  - cbn [dec_aux]. assert (Hd : 0 <= n mod 10 < 10) by (apply Z.mod_pos_bound; lia).
    assert (HD : is_digit (digit (n mod 10))) by (unfold is_digit; rewrite digit_val by auto; lia).
    destruct (Z.eqb_spec (n / 10) 0).
    + exists (String (digit (n mod 10)) ""). split; [reflexivity|]. split; [constructor; [exact HD|constructor]|].
      split; [|discriminate]. intros Hn _. cbn [list_ascii_of_string undec]. rewrite digit_val by auto.
      pose proof (Z.div_mod n 10). lia.
    + destruct (IHf (n / 10) (String (digit (n mod 10)) acc)) as (s & E & A & V & _).
      exists (s ++ String (digit (n mod 10)) ""). split; [rewrite E, sapp_assoc; reflexivity|].
      split; [apply all_chars_app; split; [auto|constructor; [exact HD|constructor]]|].
      split.
      * intros Hn Hlt. rewrite las_app, undec_app, V.
        -- cbn [list_ascii_of_string undec]. rewrite digit_val by auto. pose proof (Z.div_mod n 10). lia.
        -- apply Z.div_pos; lia.
        -- apply Z.div_lt_upper_bound; [lia|]. rewrite Nat2Z.inj_succ, Z.pow_succ_r in Hlt by lia. lia.
      * intros _ H. destruct s; discriminate.
Qed.

Lemma dec_digits n : all_chars is_digit (dec n).
Proof. unfold dec. destruct (dec_aux_app (S (Z.to_nat (Z.log2 n))) n "") as (s & -> & A & _). rewrite sapp_nil_r; auto. Qed.
Lemma dec_nonempty n : dec n <> "".
Proof.
  unfold dec. destruct (dec_aux_app (S (Z.to_nat (Z.log2 n))) n "") as (s & -> & _ & _ & A).
  rewrite sapp_nil_r. apply A; discriminate.
Qed.
Lemma undec_dec n : 0 <= n -> undec 0 (list_ascii_of_string (dec n)) = n.
Proof.
  intros Hn. unfold dec. destruct (dec_aux_app (S (Z.to_nat (Z.log2 n))) n "") as (s & -> & _ & A & _).
  rewrite sapp_nil_r. apply A; auto.
  destruct (Z.eq_dec n 0) as [->|]; [reflexivity|].
  rewrite Nat2Z.inj_succ, Z2Nat.id by apply Z.log2_nonneg. apply (Z.log2_spec n). lia.
Qed.
Lemma dec_inj n m : 0 <= n -> 0 <= m -> dec n = dec m -> n = m.
Proof. intros Hn Hm H. rewrite <- (undec_dec n), <- (undec_dec m), H by auto. auto. Qed.

Definition no_slash (s : string) : Prop := all_chars (fun c => c <> "/"%char) s.
Lemma digit_not_slash c : is_digit c -> c <> "/"%char.
Proof. intros H ->. unfold is_digit in H. change (nat_of_ascii "/"%char) with 47%nat in H. lia. Qed.
Lemma dec_no_slash n : no_slash (dec n).
Proof. unfold no_slash, all_chars. eapply Forall_impl; [|apply dec_digits]. apply digit_not_slash. Qed.

(** ** joining *)
Lemma join_path_app r l m : join_path r (l ++ m) = join_path (join_path r l) m.
Proof. revert r; induction l; simpl; auto. Qed.
Lemma join_path_snoc r l c : join_path r (l ++ [c]) = join_path r l ++ "/" ++ c.
Proof. rewrite join_path_app. reflexivity. Qed.
Lemma join_path_prefix r l : exists s, join_path r l = r ++ s /\ (l = [] -> s = "") /\ (l <> [] -> exists t, s = "/" ++ t).
Proof.
  revert r; induction l; intros r.
  - exists "". rewrite sapp_nil_r. repeat split; auto; congruence.
  - cbn [join_path]. destruct (IHl (r ++ "/" ++ a)) as (s & -> & _). exists (("/" ++ a) ++ s). split.
    + rewrite sapp_assoc. simpl. auto.
    + split; [discriminate|]. intros _. exists (a ++ s). reflexivity.
Qed.

Lemma last_slash_app l m : Forall (fun c => c <> "/"%char) m ->
  last_slash (l ++ "/"%char :: m)%list = Some l.
Proof.
  intros Hm. assert (E : last_slash m = None).
  { induction Hm; simpl; auto. rewrite IHHm. destruct (Ascii.eqb_spec x "/"%char); congruence. }
  induction l; simpl; [rewrite E; auto|]. rewrite IHl. auto.
Qed.
Lemma parent_snoc p c : no_slash c -> parent_path (p ++ "/" ++ c) = p.
Proof.
  intros Hc. unfold parent_path. rewrite las_app. simpl.
  rewrite last_slash_app by auto. apply string_of_list_ascii_of_string.
Qed.

(** last component is determined *)
Lemma snoc_inj p q c d : no_slash c -> no_slash d -> p ++ "/" ++ c = q ++ "/" ++ d -> p = q /\ c = d.
Proof.
  intros Hc Hd H. assert (p = q) as ->.
  { rewrite <- (parent_snoc p c), <- (parent_snoc q d), H; auto. }
  split; auto. apply sapp_inj_l in H. inversion H; auto.
Qed.
Lemma join_inj r l m :
  Forall no_slash l -> Forall no_slash m -> join_path r l = join_path r m -> l = m.
Proof.
  revert m. induction l as [|c l IH] using rev_ind; intros m Hl Hm H.
  - destruct m as [|c m _] using rev_ind; auto. exfalso.
    rewrite join_path_snoc in H. simpl in H.
    destruct (join_path_prefix r m) as (s & E & _). rewrite E in H.
    apply (f_equal String.length) in H. rewrite !slength_app in H. simpl in H. lia.
  - destruct m as [|d m _] using rev_ind.
    + exfalso. rewrite join_path_snoc in H. simpl in H.
      destruct (join_path_prefix r l) as (s & E & _). rewrite E in H.
      apply (f_equal String.length) in H. rewrite !slength_app in H. simpl in H. lia.
    + rewrite !join_path_snoc in H. apply Forall_app in Hl as [Hl Hc], Hm as [Hm Hd].
      inv Hc. inv Hd. apply snoc_inj in H as [H ->]; auto. f_equal. apply IH; auto.
Qed.

Lemma coords_no_slash l : Forall no_slash (map dec l).
Proof. apply Forall_map, Forall_forall. intros; apply dec_no_slash. Qed.
Lemma map_dec_inj l m : Forall (fun i => 0 <= i) l -> Forall (fun i => 0 <= i) m -> map dec l = map dec m -> l = m.
Proof.
  intros Hl; revert m; induction Hl; intros [|y m] Hm H'; simpl in *; try discriminate; auto.
  inv Hm. inv H'. f_equal; auto. apply dec_inj; auto.
Qed.
Lemma path_of_coords_inj r l m :
  Forall (fun i => 0 <= i) l -> Forall (fun i => 0 <= i) m ->
  path_of_coords r l = path_of_coords r m -> l = m.
Proof. intros Hl Hm H. apply join_inj in H; auto using coords_no_slash. apply map_dec_inj; auto. Qed.
Lemma path_of_coords_snoc r l i : path_of_coords r (l ++ [i]) = path_of_coords r l ++ "/" ++ dec i.
Proof. unfold path_of_coords. rewrite map_app. apply join_path_snoc. Qed.
Lemma path_of_coords_cons r i l : path_of_coords r (i :: l) = path_of_coords (r ++ "/" ++ dec i) l.
Proof. reflexivity. Qed.

(** ** grids *)
Definition grid (ns : list Z) : list (list Z) := map (unravel ns) (zseq (prodZ ns)).
Definition grid_paths (base : string) (ns : list Z) : list string := map (path_of_coords base) (grid ns).

Lemma zseq_mul a n : 0 <= a -> 0 <= n ->
  zseq (a * n) = flat_map (fun k => map (fun j => k * n + j) (zseq n)) (zseq a).
Proof.
  intros Ha Hn. revert a Ha. apply (natlike_ind (fun a => zseq (a * n) = flat_map (fun k => map (fun j => k * n + j) (zseq n)) (zseq a))).
  - reflexivity.
  - intros a Ha IH. unfold Z.succ. rewrite (zseq_S a) by auto. rewrite flat_map_app, <- IH. simpl. rewrite app_nil_r.
    rewrite Z.mul_add_distr_r, Z.mul_1_l. assert (Han : 0 <= a * n) by (apply Z.mul_nonneg_nonneg; auto). clear IH.
    set (b := a * n) in *. unfold zseq. replace (Z.to_nat (b + n)) with (Z.to_nat b + Z.to_nat n)%nat by lia.
    rewrite seq_app, map_app. f_equal. simpl. rewrite <- (Nat.add_0_r (Z.to_nat b)), map_map.
    generalize (Z.to_nat n) as k. clear Hn. intros k. generalize 0%nat as z. induction k; intros z; simpl; auto.
    f_equal; [lia|]. rewrite <- Nat.add_succ_r. apply IHk.
Qed.

Lemma unravel_snoc ns n p : allpos ns -> 0 < n -> 0 <= p ->
  unravel (ns ++ [n]) p = (unravel ns (p / n) ++ [match ns with [] => p | _ => p mod n end])%list.
Proof.
  intros Hp Hn. revert p. induction ns as [|m ns IH]; intros p H0; simpl.
  - rewrite Z.div_1_r. auto.
  - apply allpos_cons in Hp as [Hm Hp]. pose proof (prodZ_pos _ Hp) as HP.
    rewrite prodZ_app. simpl. rewrite Z.mul_1_r.
    rewrite IH; auto; [|apply Z.mod_pos_bound; nia].
    rewrite (Z.mul_comm (prodZ ns)). rewrite <- Z.div_div by lia. f_equal. f_equal.
    + f_equal. rewrite (Z.mul_comm n). rewrite mod_mul_div by lia. auto.
    + f_equal. destruct ns; simpl.
      * rewrite Z.mul_1_r. reflexivity.
      * rewrite (Z.mul_comm n). apply mod_mod_mul; auto.
Qed.

Lemma grid_snoc ns n : allpos ns -> 0 < n ->
  grid (ns ++ [n]) = flat_map (fun l => map (fun k => (l ++ [k])%list) (zseq n)) (grid ns).
Proof.
  intros Hp Hn. unfold grid. rewrite prodZ_app. simpl. rewrite Z.mul_1_r. pose proof (prodZ_pos _ Hp).
  rewrite zseq_mul by lia. rewrite (flat_map_concat_map _ (map _ _)), map_map, <- flat_map_concat_map.
  rewrite (flat_map_concat_map _ (zseq (prodZ ns))), concat_map, map_map, <- flat_map_concat_map.
  rewrite !flat_map_concat_map. f_equal. apply map_ext_in. intros k Hk. apply in_zseq in Hk.
  rewrite map_map. apply map_ext_in. intros j Hj. apply in_zseq in Hj.
  assert (0 <= k * n) by (apply Z.mul_nonneg_nonneg; lia).
  rewrite unravel_snoc by (auto; lia).
  rewrite (div_unique' (k * n + j) n k j) by lia. f_equal. f_equal.
  destruct ns; simpl; [|apply (mod_unique' _ _ k); lia]. simpl in Hk. lia.
Qed.

Lemma nonempty_app a b : a <> "" -> a ++ b <> "".
Proof. destruct a; simpl; congruence. Qed.
Lemma path_nonempty base l : base <> "" -> path_of_coords base l <> "".
Proof.
  intros H. unfold path_of_coords. destruct (join_path_prefix base (map dec l)) as (s & -> & _). apply nonempty_app; auto.
Qed.

Lemma extend_grid base ns n : base <> "" -> allpos ns -> 0 < n ->
  extend_paths (grid_paths base ns) n = grid_paths base (ns ++ [n]).
Proof.
  intros Hb Hp Hn. unfold extend_paths, grid_paths. rewrite grid_snoc by auto.
  rewrite (flat_map_concat_map _ (map _ _)), map_map.
  rewrite (flat_map_concat_map _ (grid ns)), concat_map, map_map. f_equal.
  apply map_ext. intros l. rewrite map_map. apply map_ext. intros k.
  rewrite path_of_coords_snoc. rewrite (proj2 (String.eqb_neq _ _)) by (apply path_nonempty; auto). auto.
Qed.
Lemma final_grid base ns n : allpos ns -> 0 < n ->
  final_paths (grid_paths base ns) n = grid_paths base (ns ++ [n]).
Proof.
  intros Hp Hn. unfold final_paths, grid_paths. rewrite grid_snoc by auto.
  rewrite (flat_map_concat_map _ (map _ _)), map_map.
  rewrite (flat_map_concat_map _ (grid ns)), concat_map, map_map. f_equal.
  apply map_ext. intros l. rewrite map_map. apply map_ext. intros k.
  rewrite path_of_coords_snoc. auto.
Qed.
Lemma grid_length ns : allpos ns -> zlen (grid ns) = prodZ ns.
Proof. intros H. unfold grid, zlen. rewrite map_length, zseq_length. apply prodZ_pos in H. lia. Qed.
Lemma nth_grid ns i d : 0 <= i < prodZ ns -> nth (Z.to_nat i) (grid ns) d = unravel ns i.
Proof.
  intros Hi. unfold grid. rewrite nth_indep with (d' := unravel ns 0).
  - rewrite map_nth, nth_zseq; auto.
  - rewrite map_length, zseq_length. lia.
Qed.
Lemma nth_grid_paths base ns i d : 0 <= i < prodZ ns -> nth (Z.to_nat i) (grid_paths base ns) d = path_of_coords base (unravel ns i).
Proof.
  intros Hi. unfold grid_paths. rewrite nth_indep with (d' := path_of_coords base []).
  - rewrite map_nth, nth_grid; auto.
  - rewrite map_length. unfold grid. rewrite map_length, zseq_length. lia.
Qed.
Lemma in_grid ns l : allpos ns -> (In l (grid ns) <-> in_bounds ns l).
Proof.
  intros Hp. unfold grid. rewrite in_map_iff. split.
  - intros (i & <- & Hi). apply in_zseq in Hi. apply unravel_in_bounds; auto.
  - intros Hl. exists (ravel ns l). split; [apply unravel_ravel; auto|]. apply in_zseq, ravel_bound; auto.
Qed.
Lemma grid_paths_nodup base ns : allpos ns -> NoDup (grid_paths base ns).
Proof.
  intros Hp. unfold grid_paths, grid. rewrite map_map.
  apply NoDup_nth with (d := ""). intros i j Hi Hj H.
  rewrite map_length, zseq_length in Hi, Hj.
  rewrite !nth_indep with (d := "") (d' := path_of_coords base (unravel ns 0)) in H by (rewrite map_length, zseq_length; auto).
  rewrite !(map_nth (fun x => path_of_coords base (unravel ns x))) in H.
  rewrite <- (Nat2Z.id i), <- (Nat2Z.id j) in H. rewrite !nth_zseq in H by lia.
  assert (Bi : 0 <= Z.of_nat i < prodZ ns) by lia. assert (Bj : 0 <= Z.of_nat j < prodZ ns) by lia.
  apply path_of_coords_inj in H; try (eapply in_bounds_nonneg, unravel_in_bounds; eauto).
  apply (f_equal (ravel ns)) in H. rewrite !ravel_unravel in H by auto. lia.
Qed.
