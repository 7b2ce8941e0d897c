(** Invariants of the thread pool. *)
Require Import List Bool String Arith Lia Permutation Sorted.
Require Import Verif.Pool Verif.PoolSpec.
Import ListNotations.

Arguments count : simpl never.
Section P.
Context {D : Type} (h : string -> D -> D).
Notation worker := (worker D). Notation state := (state D).

Lemma put_split {A} (l : list A) i o : nth_error l i = Some o -> exists l1 l2, l = l1 ++ o :: l2 /\ List.length l1 = i /\ forall x, put l i x = l1 ++ x :: l2.
Proof.
  intros H. destruct (nth_error_split l i H) as (l1 & l2 & E & L). exists l1, l2. split; auto. split; auto. intros x. unfold put. subst l i.
  rewrite firstn_app, Nat.sub_diag, firstn_all. cbn [firstn]. rewrite app_nil_r. f_equal. f_equal. rewrite skipn_app. replace (S (List.length l1) - List.length l1) with 1 by lia. rewrite skipn_all2 by lia. reflexivity.
Qed.
Lemma nth_error_put {A} (l : list A) i o x j : nth_error l i = Some o -> nth_error (put l i x) j = if Nat.eqb j i then Some x else nth_error l j.
Proof.
  intros H. destruct (put_split l i o H) as (l1 & l2 & -> & L & P). rewrite P. destruct (Nat.eqb_spec j i) as [E|E].
  - subst j. rewrite <- L. rewrite nth_error_app2, Nat.sub_diag by lia. reflexivity.
  - destruct (Nat.lt_ge_cases j i). { rewrite !nth_error_app1 by lia. reflexivity. }
    rewrite !nth_error_app2 by lia. destruct (j - List.length l1) eqn:F; [lia|reflexivity].
Qed.
Lemma put_length {A} (l : list A) i o x : nth_error l i = Some o -> List.length (put l i x) = List.length l.
Proof. intros H. destruct (put_split l i o H) as (l1 & l2 & -> & L & P). rewrite P, !app_length. reflexivity. Qed.
Lemma count_put {A} (p : A -> bool) (l : list A) i o x : nth_error l i = Some o -> count p (put l i x) + Nat.b2n (p o) = count p l + Nat.b2n (p x).
Proof.
  intros H. destruct (put_split l i o H) as (l1 & l2 & -> & L & P). rewrite P. unfold count. rewrite !filter_app, !app_length. cbn [filter]. destruct (p o), (p x); cbn [List.length Nat.b2n]; lia.
Qed.
Lemma in_put {A} (l : list A) i o x y : nth_error l i = Some o -> In y (put l i x) -> y = x \/ In y l.
Proof. intros H. destruct (put_split l i o H) as (l1 & l2 & -> & L & P). rewrite P, !in_app_iff. cbn. intuition. Qed.
Lemma in_count {A} (p : A -> bool) (l : list A) : 0 < count p l <-> exists x, In x l /\ p x = true.
Proof.
  unfold count. split.
  - destruct (filter p l) as [|x r] eqn:E; cbn; [lia|]. intros _. exists x. apply filter_In. rewrite E. left. reflexivity.
  - intros (x & A1 & A2). destruct (filter p l) eqn:E; cbn; [|lia]. assert (X : In x (filter p l)) by (apply filter_In; auto). rewrite E in X. destruct X.
Qed.

(** *** structure *)
Record inv (s : state) : Prop := mkinv {
  i_hold : forall i, nth_error (workers s) i = Some WHold <-> mutex s = Some (OWorker i);
  i_client : mutex s = Some OClient -> needs_lock (prog s) = true /\ joining s = None;
  i_done : In WDone (workers s) -> accepting s = false /\ queue s = [];
  i_wait : In WWait (workers s) -> accepting s = true /\ List.length (queue s) <= count heading (workers s);
  i_join : forall i, joining s = Some i -> accepting s = false /\ (exists k, prog s = CStop k) /\ forall j, j < i -> nth_error (workers s) j = Some WDone
}.

Lemma inv_init n c d : inv (init n c d).
Proof.
  unfold init. constructor; cbn.
  - intros i. split; [|discriminate]. intros H. apply nth_error_In, repeat_spec in H. discriminate.
  - discriminate.
  - intros H. apply repeat_spec in H. discriminate.
  - intros H. apply repeat_spec in H. discriminate.
  - discriminate.
Qed.

Ltac wput H :=
  match goal with |- context [nth_error (put ?l ?i ?x) ?j] => rewrite (nth_error_put l i _ x j H) end.

Lemma notify_cases (ws ws' : list worker) : notify_one ws ws' ->
  (exists i, nth_error ws i = Some WWait /\ ws' = put ws i WLock) \/ (~ In WWait ws /\ ws' = ws).
Proof. intros H. destruct H; [left; eauto|right; auto]. Qed.
Lemma notify_all_nth (ws : list worker) i x : nth_error (notify_all ws) i = Some x -> x <> WLock -> nth_error ws i = Some x.
Proof. unfold notify_all. rewrite nth_error_map. destruct (nth_error ws i) as [[]|]; cbn; intros H N; congruence. Qed.
Lemma notify_all_none (ws : list worker) : ~ In WWait (notify_all ws).
Proof. unfold notify_all. rewrite in_map_iff. intros (x & E & _). destruct x; discriminate. Qed.

(** changing one worker that neither holds the mutex before nor after *)
Lemma inv_one q a m l ws c d n jn i o x l' d' :
  inv (mkstate q a m l ws c d n jn) -> nth_error ws i = Some o -> o <> WHold -> o <> WDone -> heading o = false \/ waiting o = true ->
  (x = WLock \/ exists id r y, x = WRun id r y) \/ (exists id y, x = WHandle id y) ->
  inv (mkstate q a m l' (put ws i x) c d' n jn).
Proof.
  intros [I1 I2 I3 I4 I5] H N1 N2 HH HX. cbn in *. assert (X1 : x <> WHold) by (destruct HX as [[->|(?&?&?&->)]|(?&?&->)]; discriminate).
  assert (X2 : x <> WDone) by (destruct HX as [[->|(?&?&?&->)]|(?&?&->)]; discriminate). assert (X3 : x <> WWait) by (destruct HX as [[->|(?&?&?&->)]|(?&?&->)]; discriminate).
  constructor; cbn.
  - intros j. wput H. destruct (Nat.eqb_spec j i) as [E|E]; [|apply I1]. split; [congruence|]. intros M. apply I1 in M. congruence.
  - exact I2.
  - intros Hd. destruct (in_put _ _ _ _ _ H Hd) as [E|E]; [congruence|auto].
  - intros Hw. destruct (in_put _ _ _ _ _ H Hw) as [E|E]; [congruence|]. destruct (I4 E) as [A B]. split; auto.
    pose proof (count_put heading ws i o x H) as C. assert (HO : heading o = false) by (destruct HH as [HH|HH]; auto; destruct o; try discriminate HH; reflexivity). rewrite HO in C. cbn [Nat.b2n] in C.
    lia.
  - intros j Hj. destruct (I5 j Hj) as (A & B & C). split; auto. split; auto. intros k Hk. wput H. destruct (Nat.eqb_spec k i) as [E|E]; auto. subst k. rewrite C in H by auto. congruence.
Qed.

Lemma inv_step s x s' : inv s -> step h s x s' -> inv s'.
Proof.
  intros I [H|[H|H]].
  - destruct H; destruct I as [I1 I2 I3 I4 I5]; cbn in *.
    + constructor; cbn; auto.
      * intros E. destruct (I2 E). discriminate.
      * intros i E. destruct (I5 i E) as (_ & (k' & X) & _). discriminate.
    + constructor; cbn; auto.
      * intros E. destruct (I2 E). discriminate.
      * intros i E. destruct (I5 i E) as (_ & (k' & X) & _). discriminate.
    + constructor; cbn; auto.
      * intros E. destruct (I2 E). discriminate.
      * intros i E. destruct (I5 i E) as (_ & (k' & X) & _). discriminate.
    + constructor; cbn; auto. intros i. rewrite I1. split; discriminate.
    + assert (J : jn = None) by (apply I2; reflexivity). subst jn. destruct (notify_cases _ _ H) as [(i & N & ->)|[N ->]].
      * constructor; cbn.
        -- intros j'. wput N. destruct (Nat.eqb_spec j' i) as [E|E]; [split; discriminate|]. rewrite I1. split; discriminate.
        -- discriminate.
        -- intros Hd. destruct (in_put _ _ _ _ _ N Hd) as [E|E]; [congruence|]. destruct (I3 E). discriminate.
        -- intros Hw. split; auto. destruct (in_put _ _ _ _ _ N Hw) as [E|E]; [congruence|]. destruct (I4 E) as [_ B]. pose proof (count_put heading ws i _ WLock N) as C. cbn [Nat.b2n heading] in C. rewrite app_length. cbn. lia.
        -- discriminate.
      * constructor; cbn.
        -- intros j'. rewrite I1. split; discriminate.
        -- discriminate.
        -- intros Hd. destruct (I3 Hd). discriminate.
        -- intros Hw. contradiction.
        -- discriminate.
    + assert (J : jn = None) by (apply I2; reflexivity). subst jn. constructor; cbn; auto; try discriminate. intros i. rewrite I1. split; discriminate.
    + constructor; cbn.
      * intros i. split; [|discriminate]. intros Hn. apply notify_all_nth in Hn; [|discriminate]. apply I1 in Hn. discriminate.
      * discriminate.
      * intros Hd. split; auto. apply In_nth_error in Hd as [i Hi]. apply notify_all_nth in Hi; [|discriminate]. apply nth_error_In in Hi. apply I3 in Hi. tauto.
      * intros Hw. destruct (notify_all_none _ Hw).
      * intros i E. injection E as <-. split; auto. split; [eauto|]. intros j Hj. lia.
    + constructor; cbn; auto.
      * intros E. destruct (I2 E). discriminate.
      * intros j E. injection E as <-. destruct (I5 i eq_refl) as (A & B & C). split; auto. split; auto. intros j Hj. destruct (Nat.eq_dec j i); [subst; auto|]. apply C. lia.
    + constructor; cbn; auto; try discriminate. intros E. destruct (I2 E). discriminate.
    + assert (J : jn = None) by (apply I2; reflexivity). subst jn. constructor; cbn; try discriminate.
      * intros i. rewrite I1. split; discriminate.
      * intros Hd. destruct (I3 Hd). auto.
      * intros Hw. destruct (I4 Hw). split; auto. lia.
  - destruct H.
    + destruct I as [I1 I2 I3 I4 I5]. cbn in *. constructor; cbn.
      * intros j. wput H. destruct (Nat.eqb_spec j i) as [E|E]; [subst; split; congruence|]. rewrite I1. split; [discriminate|]. intros X. injection X as X. congruence.
      * discriminate.
      * intros Hd. destruct (in_put _ _ _ _ _ H Hd) as [E|E]; [discriminate|auto].
      * intros Hw. destruct (in_put _ _ _ _ _ H Hw) as [E|E]; [discriminate|]. destruct (I4 E). pose proof (count_put heading ws i _ WHold H) as C. cbn [Nat.b2n heading] in C. split; auto. lia.
      * intros j Hj. destruct (I5 j Hj) as (A & B & C). split; auto. split; auto. intros k Hk. wput H. destruct (Nat.eqb_spec k i) as [E|E]; auto. subst k. rewrite C in H by auto. congruence.
    + destruct I as [I1 I2 I3 I4 I5]. cbn in *. pose proof (proj1 (I1 i) H) as M. subst m. constructor; cbn; try discriminate.
      * intros j. wput H. destruct (Nat.eqb_spec j i) as [E|E]; [split; discriminate|]. rewrite I1. split; [|discriminate]. intros X. injection X as X. congruence.
      * intros Hd. destruct (in_put _ _ _ _ _ H Hd) as [E|E]; [discriminate|auto].
      * intros Hw. split; auto. lia.
      * intros j Hj. destruct (I5 j Hj). discriminate.
    + destruct I as [I1 I2 I3 I4 I5]. cbn in *. pose proof (proj1 (I1 i) H) as M. subst m. constructor; cbn; try discriminate.
      * intros j. wput H. destruct (Nat.eqb_spec j i) as [E|E]; [split; discriminate|]. rewrite I1. split; [|discriminate]. intros X. injection X as X. congruence.
      * auto.
      * intros Hw. destruct (in_put _ _ _ _ _ H Hw) as [E|E]; [discriminate|]. destruct (I4 E). discriminate.
      * intros j Hj. destruct (I5 j Hj) as (A & B & C). split; auto. split; auto. intros k Hk. wput H. destruct (Nat.eqb_spec k i) as [E|E]; auto.
    + destruct I as [I1 I2 I3 I4 I5]. cbn in *. pose proof (proj1 (I1 i) H) as M. subst m. constructor; cbn; try discriminate.
      * intros k. wput H. destruct (Nat.eqb_spec k i) as [E|E]; [split; discriminate|]. rewrite I1. split; [|discriminate]. intros X. injection X as X. congruence.
      * intros Hd. destruct (in_put _ _ _ _ _ H Hd) as [E|E]; [discriminate|]. destruct (I3 E). discriminate.
      * intros Hw. destruct (in_put _ _ _ _ _ H Hw) as [E|E]; [discriminate|]. destruct (I4 E) as [A B]. pose proof (count_put heading ws i _ (WRun id j (true, ""%string)) H) as C. cbn [Nat.b2n heading] in C. split; auto. lia.
      * intros k Hk. destruct (I5 k Hk) as (A & B & C). split; auto. split; auto. intros k' Hk'. wput H. destruct (Nat.eqb_spec k' i) as [E|E]; auto. subst k'. rewrite C in H by auto. congruence.
    + eapply inv_one; eauto; try discriminate; left; eauto.
    + eapply inv_one; eauto; try discriminate; left; eauto.
    + eapply inv_one; eauto; try discriminate; left; eauto.
    + eapply inv_one; eauto; try discriminate; try (left; reflexivity); right; eauto.
    + eapply inv_one; eauto; try discriminate; left; eauto.
  - destruct H. eapply inv_one; eauto; try discriminate; try (right; reflexivity); left; eauto.
Qed.
Lemma inv_steps s t s' : inv s -> steps h s t s' -> inv s'.
Proof. intros I H. induction H as [|s t s' x s'' H IH HS]; auto. exact (inv_step _ _ _ (IH I) HS). Qed.
Lemma workers_length s t s' : steps h s t s' -> List.length (workers s') = List.length (workers s).
Proof.
  intros H. induction H as [|s t s' x s'' H IH [HS|[HS|HS]]]; auto; rewrite <- IH; destruct HS; cbn; try reflexivity; try (eapply put_length; eassumption).
  - destruct (notify_cases _ _ H0) as [(i & N & ->)|[N ->]]; [eapply put_length; eassumption|reflexivity].
  - apply map_length.
Qed.

(** *** history *)
Definition ids (w : worker) : list nat := match w with WRun id _ _ | WHandle id _ => [id] | _ => [] end.
Record hist (t : list (label D)) (s : state) : Prop := mkhist {
  h_acc : accepts t = seq 0 (accepted s);
  h_all : Permutation (starts t ++ drops t ++ map fst (queue s)) (seq 0 (accepted s));
  h_sort : StronglySorted lt (starts t ++ map fst (queue s));
  h_run : Permutation (starts t) (ends t ++ flat_map ids (workers s));
  h_seq : drops t = [] -> starts t ++ map fst (queue s) = seq 0 (accepted s);
  h_stop : In LStopped t -> accepting s = false /\ Forall (fun w => w = WDone) (workers s)
}.
Lemma hist_init n c d : hist [] (init n c d).
Proof.
  constructor; cbn; auto; try constructor; try tauto. replace (flat_map ids (repeat WLock n)) with (@nil nat) by (induction n; auto). constructor.
Qed.
Lemma flat_put {B} (f : worker -> list B) (l : list worker) i o x : nth_error l i = Some o -> Permutation (f o ++ flat_map f (put l i x)) (f x ++ flat_map f l).
Proof.
  intros H. destruct (put_split l i o H) as (l1 & l2 & -> & L & P). rewrite P, !flat_map_app. cbn [flat_map].
  rewrite (Permutation_app_comm (flat_map f l1) (f x ++ _)), (Permutation_app_comm (flat_map f l1) (f o ++ _)), <- !app_assoc.
  rewrite (app_assoc (f o) (f x)), (app_assoc (f x) (f o)). apply Permutation_app_tail. apply Permutation_app_comm.
Qed.
Lemma sorted_snoc (l : list nat) n : StronglySorted lt l -> Forall (fun x => x < n) l -> StronglySorted lt (l ++ [n]).
Proof.
  induction l as [|a l IH]; intros S F; cbn; [repeat constructor|]. inversion S; inversion F; subst. constructor; auto. apply Forall_app. split; auto.
Qed.
Lemma sorted_app_l (a b : list nat) : StronglySorted lt (a ++ b) -> StronglySorted lt a.
Proof. induction a as [|x a IH]; intros H; [constructor|]. cbn in H. inversion H; subst. constructor; auto. apply Forall_app in H3. tauto. Qed.
Ltac labs := unfold accepts, starts, ends, drops; rewrite !flat_map_app; cbn [flat_map]; rewrite !app_nil_r; fold accepts starts ends drops.
Lemma labs_app (t1 t2 : list (label D)) : accepts (t1 ++ t2) = accepts t1 ++ accepts t2 /\ starts (t1 ++ t2) = starts t1 ++ starts t2 /\ ends (t1 ++ t2) = ends t1 ++ ends t2 /\ drops (t1 ++ t2) = drops t1 ++ drops t2.
Proof. unfold accepts, starts, ends, drops. rewrite !flat_map_app. auto. Qed.
Lemma all_done_no (ws : list worker) i o : Forall (fun w => w = WDone) ws -> nth_error ws i = Some o -> o = WDone.
Proof. intros F H. apply nth_error_In in H. rewrite Forall_forall in F. auto. Qed.

(** steps that leave queue, counter and running jobs alone *)
Lemma hist_same t s x s' :
  hist t s -> accepts [x] = [] -> starts [x] = [] -> ends [x] = [] -> drops [x] = [] ->
  queue s' = queue s -> accepted s' = accepted s -> Permutation (flat_map ids (workers s)) (flat_map ids (workers s')) ->
  (In LStopped (t ++ [x]) -> accepting s' = false /\ Forall (fun w => w = WDone) (workers s')) -> hist (t ++ [x]) s'.
Proof.
  intros [A1 A2 A3 A4 A5 A6] E1 E2 E3 E4 Q N P S. destruct (labs_app t [x]) as (L1 & L2 & L3 & L4). rewrite E1, app_nil_r in L1. rewrite E2, app_nil_r in L2. rewrite E3, app_nil_r in L3. rewrite E4, app_nil_r in L4.
  constructor; rewrite ?L1, ?L2, ?L3, ?L4, ?Q, ?N; auto. rewrite A4. apply Permutation_app_head. exact P.
Qed.
Lemma ids_notify_all (ws : list worker) : flat_map ids (notify_all ws) = flat_map ids ws.
Proof. unfold notify_all. induction ws as [|[] ws IH]; cbn [map flat_map]; rewrite ?IH; reflexivity. Qed.
Lemma done_notify_all (ws : list worker) : Forall (fun w => w = WDone) ws -> Forall (fun w => w = WDone) (notify_all ws).
Proof. unfold notify_all. intros H. induction H as [|w ws -> H IH]; cbn [map]; constructor; auto. Qed.
Lemma ids_put_same (ws : list worker) i o x : nth_error ws i = Some o -> ids o = ids x -> Permutation (flat_map ids ws) (flat_map ids (put ws i x)).
Proof.
  intros H E. pose proof (flat_put ids ws i o x H) as P. rewrite E in P. symmetry. eapply Permutation_app_inv_l. exact P.
Qed.

Lemma hist_step t s x s' : inv s -> hist t s -> step h s x s' -> hist (t ++ [x]) s'.
Proof.
  intros I HI [H|[H|H]].
  - assert (ST : forall y, (In LStopped (t ++ [y]) -> y = LStopped \/ In LStopped t)) by (intros y; rewrite in_app_iff; cbn; intuition).
    destruct H.
    + eapply hist_same; eauto. intros X. destruct (ST _ X); [discriminate|]. apply (h_stop _ _ HI). auto.
    + eapply hist_same; eauto. intros X. destruct (ST _ X); [discriminate|]. apply (h_stop _ _ HI). auto.
    + eapply hist_same; eauto. intros X. destruct (ST _ X); [discriminate|]. apply (h_stop _ _ HI). auto.
    + eapply hist_same; eauto. intros X. destruct (ST _ X); [discriminate|]. apply (h_stop _ _ HI). auto.
    + destruct HI as [A1 A2 A3 A4 A5 A6]. cbn in *. destruct (labs_app t [LAccept n j]) as (L1 & L2 & L3 & L4). cbn in L1, L2, L3, L4. rewrite app_nil_r in L2, L3, L4.
      assert (PW : Permutation (flat_map ids ws) (flat_map ids ws')) by (destruct (notify_cases _ _ H) as [(i & N & ->)|[N ->]]; [eapply ids_put_same; eauto|reflexivity]).
      assert (FN : Forall (fun x => x < n) (starts t ++ map fst q)). { rewrite Forall_forall. intros y Hy. assert (In y (seq 0 n)); [|rewrite in_seq in H0; lia]. eapply Permutation_in; [exact A2|]. rewrite !in_app_iff in *. tauto. }
      constructor; cbn [queue accepted workers accepting]; rewrite ?L1, ?L2, ?L3, ?L4, ?map_app; cbn [map fst].
      * rewrite A1. rewrite seq_S. reflexivity.
      * rewrite seq_S. rewrite !app_assoc. apply Permutation_app; [|reflexivity]. rewrite <- app_assoc. exact A2.
      * rewrite app_assoc. apply sorted_snoc; auto.
      * rewrite A4. apply Permutation_app_head. exact PW.
      * intros E. rewrite app_assoc, A5 by auto. rewrite seq_S. reflexivity.
      * intros X. destruct (ST _ X) as [Y|Y]; [discriminate|]. destruct (A6 Y). discriminate.
    + eapply hist_same; eauto. intros X. destruct (ST _ X); [discriminate|]. apply (h_stop _ _ HI). auto.
    + eapply hist_same; eauto; cbn.
      * rewrite ids_notify_all. reflexivity.
      * intros X. destruct (ST _ X); [discriminate|]. split; auto. apply done_notify_all. apply (h_stop _ _ HI). auto.
    + eapply hist_same; eauto. intros X. destruct (ST _ X); [discriminate|]. apply (h_stop _ _ HI). auto.
    + eapply hist_same; eauto. intros X. destruct I as [I1 I2 I3 I4 I5]. cbn in *. destruct (I5 i eq_refl) as (A & B & C). split; auto. rewrite Forall_forall. intros w Hw. apply In_nth_error in Hw as [j Hj].
      rewrite C in Hj; [congruence|]. apply nth_error_None in H. assert (j < List.length ws) by (apply nth_error_Some; congruence). lia.
    + destruct HI as [A1 A2 A3 A4 A5 A6]. cbn in *. destruct (labs_app t [LDrop (map fst q)]) as (L1 & L2 & L3 & L4). cbn in L1, L2, L3, L4. rewrite app_nil_r in L1, L2, L3, L4.
      constructor; cbn [queue accepted workers accepting map]; rewrite ?L1, ?L2, ?L3, ?L4, ?app_nil_r; auto.
      * eapply sorted_app_l; eauto.
      * intros E. apply app_eq_nil in E as [E1 E2]. rewrite <- A5 by auto. rewrite E2, app_nil_r. reflexivity.
      * intros X. destruct (ST _ X); [discriminate|]. auto.
  - assert (ST : forall y o i, y <> LStopped -> nth_error (workers s) i = Some o -> o <> WDone -> (In LStopped (t ++ [y]) -> accepting s' = false /\ Forall (fun w => w = WDone) (workers s'))).
    { intros y o i Hy Ho No X. exfalso. rewrite in_app_iff in X. cbn in X. destruct X as [X|[X|[]]]; [|congruence]. apply (h_stop _ _ HI) in X. destruct X as [_ X]. apply No. eapply all_done_no; eauto. }
    destruct H.
    + eapply hist_same; eauto; [cbn; eapply ids_put_same; eauto|]. eapply ST; eauto; discriminate.
    + eapply hist_same; eauto; [cbn; eapply ids_put_same; eauto|]. eapply ST; eauto; discriminate.
    + eapply hist_same; eauto; [cbn; eapply ids_put_same; eauto|]. eapply ST; eauto; discriminate.
    + assert (SX := ST (LStart id i) WHold i ltac:(discriminate) H ltac:(discriminate)).
      destruct HI as [A1 A2 A3 A4 A5 A6]. cbn in *. destruct (labs_app t [LStart id i]) as (L1 & L2 & L3 & L4). cbn in L1, L2, L3, L4. rewrite app_nil_r in L1, L3, L4.
      constructor; cbn [queue accepted workers accepting]; rewrite ?L1, ?L2, ?L3, ?L4; auto.
      * rewrite <- A2, <- !app_assoc. apply Permutation_app_head. cbn. apply Permutation_middle.
      * rewrite <- app_assoc. exact A3.
      * pose proof (flat_put ids ws i WHold (WRun id j (true, ""%string)) H) as P. cbn [ids app] in P. rewrite A4, P, <- app_assoc. apply Permutation_app_head. symmetry. apply Permutation_cons_append.
      * intros E. rewrite <- app_assoc. auto.
    + eapply hist_same; eauto; [cbn; eapply ids_put_same; eauto|]. eapply ST; eauto; discriminate.
    + eapply hist_same; eauto; [cbn; eapply ids_put_same; eauto|]. eapply ST; eauto; discriminate.
    + assert (SX := ST (LEnd id i) _ i ltac:(discriminate) H ltac:(discriminate)).
      destruct HI as [A1 A2 A3 A4 A5 A6]. cbn in *. destruct (labs_app t [LEnd id i]) as (L1 & L2 & L3 & L4). cbn in L1, L2, L3, L4. rewrite app_nil_r in L1, L2, L4.
      constructor; cbn [queue accepted workers accepting]; rewrite ?L1, ?L2, ?L3, ?L4; auto.
      pose proof (flat_put ids ws i _ WLock H) as P. cbn [ids app] in P. rewrite A4, <- P, <- app_assoc. reflexivity.
    + eapply hist_same; eauto; [cbn; eapply ids_put_same; eauto|]. eapply ST; eauto; discriminate.
    + assert (SX := ST (LEnd id i) _ i ltac:(discriminate) H ltac:(discriminate)).
      destruct HI as [A1 A2 A3 A4 A5 A6]. cbn in *. destruct (labs_app t [LEnd id i]) as (L1 & L2 & L3 & L4). cbn in L1, L2, L3, L4. rewrite app_nil_r in L1, L2, L4.
      constructor; cbn [queue accepted workers accepting]; rewrite ?L1, ?L2, ?L3, ?L4; auto.
      pose proof (flat_put ids ws i _ WLock H) as P. cbn [ids app] in P. rewrite A4, <- P, <- app_assoc. reflexivity.
  - destruct H. eapply hist_same; eauto; [cbn; eapply ids_put_same; eauto|]. intros X. rewrite in_app_iff in X. cbn in X. destruct X as [X|[X|[]]]; [|discriminate]. apply (h_stop _ _ HI) in X. destruct X as [_ X]. cbn in X. pose proof (all_done_no _ _ _ X H). discriminate.
Qed.
Lemma hist_steps n c d t s : steps h (init n c d) t s -> inv s /\ hist t s.
Proof.
  intros H. remember (init n c d) as s0 eqn:E. induction H as [|s t s' x s'' H IH HS]; [subst; split; [apply inv_init|apply hist_init]|]. destruct (IH E) as [A B]. split; [eapply inv_step; eauto|eapply hist_step; eauto].
Qed.

(** *** progress *)
Definition weight (w : worker) : nat := match w with WLock => 2 | WHold => 1 | WWait => 0 | WRun _ r _ => List.length r + 4 | WHandle _ _ => 3 | WDone => 0 end.
Definition work (s : state) : nat := list_sum (map weight (workers s)) + list_sum (map (fun e => List.length (snd e) + 6) (queue s)).
Lemma sum_cons (a : nat) l : list_sum (a :: l) = a + list_sum l.
Proof. reflexivity. Qed.
Lemma sum_put (ws : list worker) i o x : nth_error ws i = Some o -> list_sum (map weight (put ws i x)) + weight o = list_sum (map weight ws) + weight x.
Proof.
  intros H. destruct (put_split ws i o H) as (l1 & l2 & -> & L & P). rewrite P, !map_app. cbn [map]. rewrite !list_sum_app. assert (C : forall a l, list_sum (a :: l) = a + list_sum l) by reflexivity. rewrite !C. lia.
Qed.
Lemma work_worker s x s' : worker_step h s x s' -> work s' < work s.
Proof.
  intros H. destruct H; unfold work; cbn [workers queue]; match goal with H : nth_error ?ws ?i = Some ?o |- context [put ?ws ?i ?y] => pose proof (sum_put ws i o y H) as X; cbn [weight List.length] in X end; cbn [map snd]; rewrite ?sum_cons; lia.
Qed.
Lemma work_spurious s x s' : spurious_step s x s' -> work s' = work s + 2.
Proof. intros H. destruct H. unfold work. cbn [workers queue]. pose proof (sum_put ws i _ WLock H) as X. cbn [weight] in X. lia. Qed.

(** nothing can happen except a spurious wake-up *)
Definition stuck (s : state) : Prop := forall x s', ~ client_step s x s' /\ ~ worker_step h s x s'.
Lemma waiting_dec (ws : list worker) : In WWait ws \/ ~ In WWait ws.
Proof. induction ws as [|w ws [IH|IH]]; cbn; [tauto|tauto|]. destruct w; try (right; intros [X|X]; [discriminate|contradiction]). left. auto. Qed.
Lemma stuck_workers s : inv s -> stuck s -> mutex s = None /\ Forall (fun w => w = WWait \/ w = WDone) (workers s).
Proof.
  intros I S. destruct s as [q a m l ws c d n jn]. cbn.
  assert (M : m = None).
  { destruct m as [[|i]|]; auto; exfalso; destruct I as [I1 I2 I3 I4 I5]; cbn in *.
    - destruct (I2 eq_refl) as [Hc ->]. destruct c; try discriminate Hc.
      + destruct a; [|eapply (proj1 (S _ _)); apply s_reject]. destruct (waiting_dec ws) as [W|W].
        * apply In_nth_error in W as [i W]. eapply (proj1 (S _ _)). apply s_push. apply (n_one D ws i W).
        * eapply (proj1 (S _ _)). apply s_push. apply (n_none D ws W).
      + eapply (proj1 (S _ _)). apply s_stop.
      + eapply (proj1 (S _ _)). apply s_clear.
    - pose proof (proj2 (I1 i) eq_refl) as H. destruct q as [|[id j] q]; [destruct a|].
      + eapply (proj2 (S _ _)). eapply w_wait. exact H.
      + eapply (proj2 (S _ _)). eapply w_exit. exact H.
      + eapply (proj2 (S _ _)). eapply w_pop. exact H. }
  split; auto. subst m. rewrite Forall_forall. intros w Hw. apply In_nth_error in Hw as [i Hi]. destruct w as [| | |id [|[f|] r] [[] msg]|id msg|]; auto; exfalso.
  - eapply (proj2 (S _ _)). eapply w_lock. exact Hi.
  - apply (i_hold _ I) in Hi. discriminate.
  - eapply (proj2 (S _ _)). eapply w_ok. exact Hi.
  - eapply (proj2 (S _ _)). eapply w_failed. exact Hi.
  - destruct (f (true, msg) d) as (x' & d') eqn:F. eapply (proj2 (S _ _)). eapply w_act; eauto.
  - destruct (f (false, msg) d) as (x' & d') eqn:F. eapply (proj2 (S _ _)). eapply w_act; eauto.
  - eapply (proj2 (S _ _)). eapply w_count. exact Hi.
  - eapply (proj2 (S _ _)). eapply w_count. exact Hi.
  - eapply (proj2 (S _ _)). eapply w_handle. exact Hi.
Qed.
Lemma stuck_state s : inv s -> 0 < List.length (workers s) -> stuck s ->
  queue s = [] /\ Forall (fun w => w = WWait \/ w = WDone) (workers s) /\ (prog s = CRet \/ exists k, prog s = CWait k /\ 0 < latch s).
Proof.
  intros I N S. destruct (stuck_workers s I S) as [M F]. split; [|split; auto].
  - destruct (workers s) as [|w ws] eqn:E; [cbn in N; lia|]. inversion F as [|? ? Hw F']; subst. destruct Hw as [->| ->].
    + destruct (i_wait _ I) as [_ B]; [rewrite E; left; reflexivity|]. assert (count heading (workers s) = 0).
      { destruct (Nat.eq_0_gt_0_cases (count heading (workers s))) as [X|X]; auto. apply in_count in X as (x & X1 & X2). rewrite E in X1. rewrite Forall_forall in F. destruct (F x X1) as [->| ->]; discriminate. }
      destruct (queue s); auto. cbn in B. lia.
    + apply (i_done _ I). rewrite E. left. reflexivity.
  - destruct s as [q a m l ws c d n jn]. cbn in *. subst m. destruct c; auto.
    + exfalso. eapply (proj1 (S _ _)). apply s_do.
    + exfalso. destruct jn as [i|]; [|eapply (proj1 (S _ _)); eapply s_lock; reflexivity]. destruct (i_join _ I i eq_refl) as (_ & (k' & X) & _). discriminate.
    + exfalso. eapply (proj1 (S _ _)). apply s_latch.
    + right. destruct l as [|l]; [exfalso; eapply (proj1 (S _ _)); apply s_wait|]. eexists. split; [reflexivity|lia].
    + exfalso. destruct jn as [i|]; [|eapply (proj1 (S _ _)); eapply s_lock; reflexivity]. destruct (i_join _ I i eq_refl) as (A & _ & _). cbn in A.
      destruct (nth_error ws i) as [w|] eqn:E; [|eapply (proj1 (S _ _)); eapply s_joined; exact E].
      rewrite Forall_forall in F. destruct (F w (nth_error_In _ _ E)) as [->| ->]; [|eapply (proj1 (S _ _)); eapply s_join; exact E].
      destruct (i_wait _ I (nth_error_In _ _ E)) as [X _]. cbn in X. congruence.
    + exfalso. destruct jn as [i|]; [|eapply (proj1 (S _ _)); eapply s_lock; reflexivity]. destruct (i_join _ I i eq_refl) as (_ & (k' & X) & _). discriminate.
Qed.

(** *** latches *)
Lemma pushes_disciplined (js : list (job D)) k : Forall (fun j => cds j = 1) js -> disciplined false 0 k -> disciplined true (List.length js) (pushes js (CWait k)).
Proof.
  intros F K. induction F as [|j js Hj F IH]; cbn [pushes List.length]; [constructor; auto|]. replace (S (List.length js)) with (cds j + List.length js) by lia. constructor; [lia|exact IH].
Qed.
Lemma batch_disciplined (js : list (job D)) k : Forall (fun j => cds j = 1) js -> disciplined false 0 k -> disciplined false 0 (batch js k).
Proof. intros F K. constructor. apply pushes_disciplined; auto. Qed.

Definition wcds (w : worker) : nat := match w with WRun _ r _ => cds r | _ => 0 end.
Definition pending (s : state) : nat := list_sum (map wcds (workers s)) + list_sum (map (fun e => cds (snd e)) (queue s)).
Arguments pending : simpl never.
Arguments cds : simpl never.
Arguments list_sum : simpl never.
Lemma wput (f : worker -> nat) (ws : list worker) i o x : nth_error ws i = Some o -> list_sum (map f (put ws i x)) + f o = list_sum (map f ws) + f x.
Proof.
  intros H. destruct (put_split ws i o H) as (l1 & l2 & -> & L & P). rewrite P, !map_app. cbn [map]. rewrite !list_sum_app, !sum_cons. lia.
Qed.
Lemma wcds_notify_all (ws : list worker) : list_sum (map wcds (notify_all ws)) = list_sum (map wcds ws).
Proof. unfold notify_all. induction ws as [|w ws IH]; [reflexivity|]. cbn [map]. rewrite !sum_cons, IH. destruct w; reflexivity. Qed.
Lemma cds_app (a b : job D) : cds (a ++ b) = cds a + cds b.
Proof. unfold cds. rewrite filter_app, app_length. reflexivity. Qed.
Lemma nacts_app (a b : job D) : nacts (a ++ b) = nacts a + nacts b.
Proof. unfold nacts. rewrite filter_app, app_length. reflexivity. Qed.

Definition phase (t : list (label D)) (s : state) : Prop :=
  (exists o m, disciplined o m (prog s) /\ (if o : bool then latch s = m + pending s else pending s = 0) /\ accepting s = true /\ joining s = None /\ drops t = [])
  \/ (quiet (prog s) /\ pending s = 0).
Lemma worker_pending s x s' : worker_step h s x s' ->
  prog s' = prog s /\ accepting s' = accepting s /\ joining s' = joining s /\
  (pending s' = pending s /\ latch s' = latch s \/ S (pending s') = pending s /\ latch s' = pred (latch s)).
Proof.
  intros H; destruct H; cbn [prog accepting joining latch]; split; auto; split; auto; split; auto; unfold pending; cbn [workers queue];
    match goal with H : nth_error ?ws ?i = Some ?o |- context [put ?ws ?i ?y] => pose proof (wput wcds ws i o y H) as X; cbn [wcds] in X end; cbn [map snd]; rewrite ?sum_cons.
  - left. lia.
  - left. lia.
  - left. lia.
  - left. lia.
  - left. change (cds (Act f :: r)) with (cds r) in X. lia.
  - right. change (cds (CountDown :: r)) with (S (cds r)) in X. lia.
  - left. change (cds []) with 0 in X. lia.
  - left. change (cds []) with 0 in X. lia.
  - left. lia.
Qed.
Lemma worker_drops s x s' (t : list (label D)) : worker_step h s x s' -> drops (t ++ [x]) = drops t.
Proof. intros H. destruct (labs_app t [x]) as (_ & _ & _ & ->). destruct H; cbn; apply app_nil_r. Qed.
Lemma phase_step t s x s' : inv s -> phase t s -> step h s x s' -> phase (t ++ [x]) s'.
Proof.
  intros I P [H|[H|H]].
  - destruct (labs_app t [x]) as (_ & _ & _ & DR). destruct P as [(o & m & A & B & C & J & DD)|[Q B]].
    + destruct H; cbn in *; rewrite ?app_nil_r in DR.
      * inversion A; subst. left. exists o, m. cbn. rewrite DR. auto.
      * inversion A; subst. left. exists true, l'. cbn. rewrite DR. split; auto. split; auto. unfold pending in *. cbn in *. lia.
      * inversion A; subst. left. exists false, 0. cbn. rewrite DR. split; auto.
      * left. exists o, m. cbn. rewrite DR. auto.
      * inversion A; subst. left. exists true, m0. cbn. rewrite DR. split; auto. split; auto. unfold pending in *. cbn [workers queue] in *. rewrite map_app, list_sum_app. cbn [map snd]. rewrite sum_cons. change (list_sum []) with 0.
        assert (list_sum (map wcds ws') = list_sum (map wcds ws)) as ->; [|lia]. destruct (notify_cases _ _ H) as [(i & N & ->)|[N ->]]; [|reflexivity]. pose proof (wput wcds ws i _ WLock N) as X. cbn [wcds] in X. lia.
      * discriminate.
      * inversion A; subst. right. split; [constructor; auto|]. unfold pending in *. cbn [workers queue] in *. rewrite wcds_notify_all. auto.
      * discriminate.
      * discriminate.
      * inversion A.
    + right. destruct H; cbn in *; (split; [try (inversion Q; subst; now auto); exact Q|]) || (split; [inversion Q; subst; now auto|]) || idtac; unfold pending in *; cbn [workers queue] in *; auto.
      * inversion Q.
      * rewrite wcds_notify_all. auto.
      * cbn [map]. change (list_sum []) with 0. lia.
  - destruct (worker_pending s x s' H) as (E1 & E2 & E3 & E4). destruct P as [(o & m & A & B & C & J & DD)|[Q B]].
    + left. exists o, m. rewrite E1, E2, E3. split; auto. split; [|rewrite (worker_drops _ _ _ t H); auto]. destruct o; lia.
    + right. rewrite E1. split; auto. lia.
  - destruct H. destruct (labs_app t [LSpurious i]) as (_ & _ & _ & DR). rewrite app_nil_r in DR.
    assert (PE : pending (mkstate q a m l (put ws i WLock) c d n jn) = pending (mkstate q a m l ws c d n jn)). { unfold pending. cbn [workers queue]. pose proof (wput wcds ws i _ WLock H) as X. cbn [wcds] in X. lia. }
    destruct P as [(o & m' & A & B & C & J & DD)|[Q B]]; [left; exists o, m'; rewrite DR, PE; auto|right; rewrite PE; auto].
Qed.

(** what has become of an accepted job *)
Definition fate (t : list (label D)) (s : state) (id : nat) (j : job D) : Prop :=
  (In (id, j) (queue s) /\ acted id t = 0) \/
  (exists i r x pre, nth_error (workers s) i = Some (WRun id r x) /\ j = pre ++ r /\ acted id t = nacts pre) \/
  (acted id t = nacts j /\ ~ In id (map fst (queue s)) /\ id < accepted s /\ forall i r x, nth_error (workers s) i <> Some (WRun id r x)) \/
  In id (drops t).
Lemma acted_app id (t1 t2 : list (label D)) : acted id (t1 ++ t2) = acted id t1 + acted id t2.
Proof. unfold acted. rewrite filter_app, app_length. reflexivity. Qed.
Lemma drops_in id (t : list (label D)) x : In id (drops t) -> In id (drops (t ++ [x])).
Proof. destruct (labs_app t [x]) as (_ & _ & _ & ->). rewrite in_app_iff. auto. Qed.
Lemma nodup_app {A} (a b : list A) : NoDup (a ++ b) -> NoDup a /\ NoDup b /\ forall x, In x a -> In x b -> False.
Proof.
  induction a as [|x a IH]; intros H; cbn in *; [repeat split; auto; constructor|]. inversion H as [|? ? H1 H2]; subst. destruct (IH H2) as (A1 & A2 & A3). rewrite in_app_iff in H1.
  split; [constructor; tauto|]. split; auto. intros y [->|Hy] Hb; [tauto|eauto].
Qed.
Lemma hist_nodup t s : hist t s -> NoDup (starts t) /\ NoDup (flat_map ids (workers s)) /\
  (forall id, In id (flat_map ids (workers s)) -> In id (starts t)) /\ (forall id, In id (starts t) -> In id (drops t) -> False) /\ (forall id, In id (starts t) -> In id (map fst (queue s)) -> False) /\
  (forall id, In id (drops t) -> In id (map fst (queue s)) -> False) /\
  (forall id, In id (starts t) \/ In id (drops t) \/ In id (map fst (queue s)) <-> id < accepted s).
Proof.
  intros HI. assert (Y : NoDup (starts t ++ drops t ++ map fst (queue s))) by (eapply Permutation_NoDup; [symmetry; apply (h_all _ _ HI)|apply seq_NoDup]).
  destruct (nodup_app _ _ Y) as (A1 & A2 & A3). destruct (nodup_app _ _ A2) as (B1 & B2 & B3). pose proof (Permutation_NoDup (h_run _ _ HI) A1) as C. destruct (nodup_app _ _ C) as (C1 & C2 & C3).
  split; auto. split; auto. split; [intros id Hi; eapply Permutation_in; [symmetry; apply (h_run _ _ HI)|]; apply in_app_iff; auto|].
  split; [intros id X1 X2; apply (A3 id X1); apply in_app_iff; auto|]. split; [intros id X1 X2; apply (A3 id X1); apply in_app_iff; auto|]. split; [eauto|].
  intros id. assert (X : In id (starts t ++ drops t ++ map fst (queue s)) <-> In id (seq 0 (accepted s))) by (split; apply Permutation_in; [|symmetry]; apply (h_all _ _ HI)).
  rewrite !in_app_iff, in_seq in X. rewrite X. lia.
Qed.
Lemma unique_runner t s i1 i2 id : hist t s -> forall w1 w2, nth_error (workers s) i1 = Some w1 -> nth_error (workers s) i2 = Some w2 -> In id (ids w1) -> In id (ids w2) -> i1 = i2.
Proof.
  intros HI w1 w2 H1 H2 A1 A2. destruct (hist_nodup t s HI) as (_ & ND & _).
  clear HI. revert i1 i2 H1 H2 ND. induction (workers s) as [|w ws IH]; intros [|i1] [|i2] H1 H2 ND; cbn in *; try discriminate; auto.
  - exfalso. injection H1 as ->. apply nth_error_In in H2. destruct (nodup_app _ _ ND) as (_ & _ & X). apply (X id A1). apply in_flat_map. eauto.
  - exfalso. injection H2 as ->. apply nth_error_In in H1. destruct (nodup_app _ _ ND) as (_ & _ & X). apply (X id A2). apply in_flat_map. eauto.
  - f_equal. apply IH; auto. destruct (nodup_app _ _ ND). tauto.
Qed.

Record fates (t : list (label D)) (s : state) : Prop := mkfates {
  f_all : forall id j, In (LAccept id j) t -> fate t s id j;
  f_fresh : forall id, accepted s <= id -> acted id t = 0;
  f_queue : forall id j, In (id, j) (queue s) -> In (LAccept id j) t /\ acted id t = 0
}.
Lemma accept_lt t s id j : hist t s -> In (LAccept id j) t -> id < accepted s.
Proof.
  intros HI H. assert (X : In id (accepts t)) by (unfold accepts; apply in_flat_map; exists (LAccept id j); split; [auto|left; reflexivity]). rewrite (h_acc _ _ HI), in_seq in X. lia.
Qed.
(** a step that changes neither queue, nor running jobs, nor counters *)
Lemma fates_same t s x s' : fates t s -> (forall id j, x <> LAccept id j) -> (forall id, acted id [x] = 0) -> queue s' = queue s -> accepted s' = accepted s ->
  (forall i id r y, nth_error (workers s') i = Some (WRun id r y) <-> nth_error (workers s) i = Some (WRun id r y)) -> fates (t ++ [x]) s'.
Proof.
  intros [F1 F2 F3] N A Q C W. assert (AA : forall id, acted id (t ++ [x]) = acted id t) by (intros id; rewrite acted_app, A; lia).
  constructor.
  - intros id j H. rewrite in_app_iff in H. destruct H as [H|[H|[]]]; [|destruct (N id j); auto]. specialize (F1 id j H). unfold fate in *. rewrite AA, Q, C. destruct F1 as [G|[(i & r & y & pre & G1 & G2)|[(G1 & G2 & G3 & G4)|G]]].
    + left. auto.
    + right. left. exists i, r, y, pre. rewrite W. auto.
    + right. right. left. repeat split; auto. intros i r y X. apply W in X. eapply G4; eauto.
    + right. right. right. apply drops_in. auto.
  - intros id. rewrite C, AA. auto.
  - intros id j. rewrite Q, AA, in_app_iff. intros X. destruct (F3 id j X). auto.
Qed.
Lemma run_put_same (ws : list worker) i o x k id r y : nth_error ws i = Some o -> (forall id r y, o <> WRun id r y) -> (forall id r y, x <> WRun id r y) ->
  nth_error (put ws i x) k = Some (WRun id r y) <-> nth_error ws k = Some (WRun id r y).
Proof. intros H N1 N2. rewrite (nth_error_put ws i o x k H). destruct (Nat.eqb_spec k i) as [E|E]; [|reflexivity]. subst k. rewrite H. split; intros X; injection X as X; [destruct (N2 id r y X)|destruct (N1 id r y X)]. Qed.
Lemma run_notify_all (ws : list worker) k id r y : nth_error (notify_all ws) k = Some (WRun id r y) <-> nth_error ws k = Some (WRun id r y).
Proof. unfold notify_all. rewrite nth_error_map. destruct (nth_error ws k) as [[]|]; cbn; split; intros; congruence. Qed.

Lemma fates_step t s x s' : inv s -> hist t s -> fates t s -> step h s x s' -> fates (t ++ [x]) s'.
Proof.
  intros I HI F [H|[H|H]].
  - destruct H; try (apply (fates_same t _ _ _ F); [discriminate|reflexivity|reflexivity|reflexivity|intros; cbn; reflexivity]).
    + (* push *) destruct F as [F1 F2 F3]. cbn in *.
      assert (W : forall i id r y, nth_error ws' i = Some (WRun id r y) <-> nth_error ws i = Some (WRun id r y)).
      { intros i id r y. destruct (notify_cases _ _ H) as [(i' & N & ->)|[N ->]]; [|reflexivity]. apply (run_put_same _ _ _ _ _ _ _ _ N); discriminate. }
      assert (AA : forall id, acted id (t ++ [LAccept n j]) = acted id t) by (intros id; rewrite acted_app; change (acted id [LAccept n j]) with 0; lia).
      constructor; cbn.
      * intros id j' HA. rewrite in_app_iff in HA. unfold fate. cbn. rewrite AA. destruct HA as [HA|[HA|[]]].
        -- destruct (F1 id j' HA) as [G|[(i & r & y & pre & G1 & G2)|[(G1 & G2 & G3 & G4)|G]]]; cbn in *.
           ++ left. rewrite in_app_iff. tauto.
           ++ right. left. exists i, r, y, pre. rewrite W. auto.
           ++ right. right. left. split; auto. split; [|split; [lia|]]. { rewrite map_app, in_app_iff. cbn. intros [X|[X|[]]]; [auto|lia]. } intros i r y X. apply W in X. eapply G4; eauto.
           ++ right. right. right. apply drops_in. auto.
        -- injection HA as <- <-. left. rewrite in_app_iff. split; [right; left; reflexivity|]. apply F2. lia.
      * intros id Hid. rewrite AA. apply F2. lia.
      * intros id j'. rewrite !in_app_iff, AA. intros [X|[X|[]]]; [destruct (F3 id j' X); auto|]. injection X as <- <-. split; [right; left; reflexivity|]. apply F2. lia.
    + (* stop *) apply (fates_same t _ _ _ F); try discriminate; try reflexivity. intros. cbn. apply run_notify_all.
    + (* clear *) destruct F as [F1 F2 F3]. cbn in *. set (x := LDrop (map fst q)).
      assert (AA : forall id, acted id (t ++ [x]) = acted id t) by (intros id; rewrite acted_app; change (acted id [x]) with 0; lia).
      constructor; cbn.
      * intros id j' HA. rewrite in_app_iff in HA. destruct HA as [HA|[HA|[]]]; [|discriminate]. unfold fate. cbn. rewrite AA. destruct (F1 id j' HA) as [G|[(i & r & y & pre & G1 & G2)|[(G1 & G2 & G3 & G4)|G]]]; cbn in *.
        -- right. right. right. destruct (labs_app t [x]) as (_ & _ & _ & ->). rewrite in_app_iff. right. unfold x. cbn. rewrite app_nil_r. apply in_map_iff. exists (id, j'). tauto.
        -- right. left. exists i, r, y, pre. auto.
        -- right. right. left. auto.
        -- right. right. right. apply drops_in. auto.
      * intros id Hid. rewrite AA. auto.
      * tauto.
  - destruct (hist_nodup t s HI) as (_ & ND & RS & SD & SQ & DQ & LT). destruct H.
    + apply (fates_same t _ _ _ F); try discriminate; try reflexivity. intros. cbn. apply (run_put_same _ _ _ _ _ _ _ _ H); discriminate.
    + apply (fates_same t _ _ _ F); try discriminate; try reflexivity. intros. cbn. apply (run_put_same _ _ _ _ _ _ _ _ H); discriminate.
    + apply (fates_same t _ _ _ F); try discriminate; try reflexivity. intros. cbn. apply (run_put_same _ _ _ _ _ _ _ _ H); discriminate.
    + (* pop *) destruct F as [F1 F2 F3]. cbn in *. set (x := LStart id i).
      assert (AA : forall k, acted k (t ++ [x]) = acted k t) by (intros k; rewrite acted_app; change (acted k [x]) with 0; lia).
      assert (NQ : ~ In id (map fst q)). { pose proof (h_sort _ _ HI) as SS. cbn in SS. clear - SS. induction (starts t) as [|a l IH]; cbn in SS; inversion SS; subst; auto. rewrite Forall_forall in H2. intros X. apply H2 in X. lia. }
      assert (HS : ~ In id (starts t)) by (intros X; apply (SQ id X); left; reflexivity).
      constructor; cbn.
      * intros k j' HA. rewrite in_app_iff in HA. destruct HA as [HA|[HA|[]]]; [|discriminate]. unfold fate. cbn. rewrite AA. destruct (F1 k j' HA) as [[[G|G] G']|[(w & r & y & pre & G1 & G2)|[(G1 & G2 & G3 & G4)|G]]]; cbn in *.
        -- injection G as <- <-. right. left. exists i, j, (true, ""%string), []. rewrite (nth_error_put ws i _ _ i H), Nat.eqb_refl. auto.
        -- left. auto.
        -- right. left. exists w, r, y, pre. rewrite (nth_error_put ws i _ _ w H). destruct (Nat.eqb_spec w i) as [E|E]; [subst w; congruence|]. auto.
        -- right. right. left. split; auto. split; auto. split; auto. intros w r y X. rewrite (nth_error_put ws i _ _ w H) in X. destruct (Nat.eqb_spec w i) as [E|E]; [|eapply G4; eauto]. injection X as <- <- <-. apply G2. left. reflexivity.
        -- right. right. right. apply drops_in. auto.
      * intros k Hk. rewrite AA. auto.
      * intros k j' X. rewrite in_app_iff, AA. destruct (F3 k j' (or_intror X)). auto.
    + (* act *) destruct F as [F1 F2 F3]. cbn in *. set (lx := LAct id). assert (RI : In id (flat_map ids ws)) by (apply in_flat_map; exists (WRun id (Act f :: r) x); split; [eapply nth_error_In; eauto|left; reflexivity]).
      assert (AA : forall k, acted k (t ++ [lx]) = acted k t + if Nat.eqb id k then 1 else 0) by (intros k; rewrite acted_app; unfold acted at 2, lx; cbn; destruct (Nat.eqb id k); cbn; lia).
      assert (AO : forall k, k <> id -> acted k (t ++ [lx]) = acted k t) by (intros k Hk; rewrite AA; destruct (Nat.eqb_spec id k); lia).
      constructor; cbn.
      * intros k j' HA. rewrite in_app_iff in HA. destruct HA as [HA|[HA|[]]]; [|discriminate]. unfold fate. cbn. destruct (F1 k j' HA) as [[G G']|[(w & r' & y & pre & G1 & G2 & G3)|[(G1 & G2 & G3 & G4)|G]]]; cbn in *.
        -- left. split; auto. rewrite AO; auto. intros ->. apply (SQ id (RS id RI)). apply in_map_iff. exists (id, j'). auto.
        -- right. left. destruct (Nat.eq_dec k id) as [->|NE].
           ++ assert (w = i) by (eapply (unique_runner t _ w i id HI); [exact G1|exact H|left; reflexivity|left; reflexivity]). subst w. rewrite H in G1. injection G1 as <- <-.
              exists i, r, x', (pre ++ [Act f]). rewrite (nth_error_put ws i _ _ i H), Nat.eqb_refl. split; auto. split; [rewrite <- app_assoc; auto|]. rewrite AA, Nat.eqb_refl, nacts_app, G3. reflexivity.
           ++ exists w, r', y, pre. rewrite (nth_error_put ws i _ _ w H). destruct (Nat.eqb_spec w i) as [E|E]; [subst w; congruence|]. rewrite AO by auto. auto.
        -- right. right. left. assert (k <> id) by (intros ->; eapply G4; eauto). rewrite AO by auto. split; auto. split; auto. split; auto. intros w r' y X. rewrite (nth_error_put ws i _ _ w H) in X. destruct (Nat.eqb_spec w i) as [E|E]; [congruence|eapply G4; eauto].
        -- right. right. right. apply drops_in. auto.
      * intros k Hk. rewrite AO; auto. intros ->. assert (id < n) by (apply LT; auto). lia.
      * intros k j' X. destruct (F3 k j' X). rewrite in_app_iff, AO; auto. intros ->. apply (SQ id (RS id RI)). apply in_map_iff. exists (id, j'). auto.
    + (* count down *) destruct F as [F1 F2 F3]. cbn in *. set (lx := LWorker i).
      assert (AA : forall k, acted k (t ++ [lx]) = acted k t) by (intros k; rewrite acted_app; change (acted k [lx]) with 0; lia).
      constructor; cbn.
      * intros k j' HA. rewrite in_app_iff in HA. destruct HA as [HA|[HA|[]]]; [|discriminate]. unfold fate. cbn. rewrite AA. destruct (F1 k j' HA) as [[G G']|[(w & r' & y & pre & G1 & G2 & G3)|[(G1 & G2 & G3 & G4)|G]]]; cbn in *.
        -- left. auto.
        -- right. left. destruct (Nat.eq_dec w i) as [->|NE].
           ++ rewrite H in G1. injection G1 as <- <- <-. exists i, r, x, (pre ++ [CountDown]). rewrite (nth_error_put ws i _ _ i H), Nat.eqb_refl. split; auto. split; [rewrite <- app_assoc; auto|]. rewrite nacts_app, G3. change (nacts [CountDown]) with 0. lia.
           ++ exists w, r', y, pre. rewrite (nth_error_put ws i _ _ w H). destruct (Nat.eqb_spec w i) as [E|E]; [congruence|]. auto.
        -- right. right. left. split; auto. split; auto. split; auto. intros w r' y X. rewrite (nth_error_put ws i _ _ w H) in X. destruct (Nat.eqb_spec w i) as [E|E]; [|eapply G4; eauto]. injection X as <- <- <-. eapply G4; eauto.
        -- right. right. right. apply drops_in. auto.
      * intros k Hk. rewrite AA. auto.
      * intros k j' X. rewrite in_app_iff, AA. destruct (F3 k j' X). auto.
    + (* ok *) assert (XX : fates (t ++ [LEnd id i]) (mkstate q a m l (put ws i WLock) c d n jn)); [|exact XX]. destruct F as [F1 F2 F3]. cbn in *. set (lx := LEnd id i).
      assert (AA : forall k, acted k (t ++ [lx]) = acted k t) by (intros k; rewrite acted_app; change (acted k [lx]) with 0; lia).
      assert (RI : In id (flat_map ids ws)) by (apply in_flat_map; eexists; split; [eapply nth_error_In; eauto|left; reflexivity]).
      constructor; cbn.
      * intros k j' HA. rewrite in_app_iff in HA. destruct HA as [HA|[HA|[]]]; [|discriminate]. unfold fate. cbn. rewrite AA. destruct (F1 k j' HA) as [[G G']|[(w & r' & y & pre & G1 & G2 & G3)|[(G1 & G2 & G3 & G4)|G]]]; cbn in *.
        -- left. auto.
        -- destruct (Nat.eq_dec w i) as [->|NE].
           ++ rewrite H in G1. injection G1 as <- <- <-. right. right. left. rewrite app_nil_r in G2. subst pre. split; auto. split; [intros X; eapply SQ; eauto|]. split; [apply LT; auto|].
              intros w r' y X. rewrite (nth_error_put ws i _ _ w H) in X. destruct (Nat.eqb_spec w i) as [E|E]; [discriminate|]. apply E. eapply (unique_runner t _ w i id HI); [exact X|exact H|left; reflexivity|left; reflexivity].
           ++ right. left. exists w, r', y, pre. rewrite (nth_error_put ws i _ _ w H). destruct (Nat.eqb_spec w i) as [E|E]; [congruence|]. auto.
        -- right. right. left. split; auto. split; auto. split; auto. intros w r' y X. rewrite (nth_error_put ws i _ _ w H) in X. destruct (Nat.eqb_spec w i) as [E|E]; [discriminate|eapply G4; eauto].
        -- right. right. right. apply drops_in. auto.
      * intros k Hk. rewrite AA. auto.
      * intros k j' X. rewrite in_app_iff, AA. destruct (F3 k j' X). auto.
    + (* failed *) destruct F as [F1 F2 F3]. cbn in *. set (lx := LWorker i).
      assert (AA : forall k, acted k (t ++ [lx]) = acted k t) by (intros k; rewrite acted_app; change (acted k [lx]) with 0; lia).
      assert (RI : In id (flat_map ids ws)) by (apply in_flat_map; eexists; split; [eapply nth_error_In; eauto|left; reflexivity]).
      constructor; cbn.
      * intros k j' HA. rewrite in_app_iff in HA. destruct HA as [HA|[HA|[]]]; [|discriminate]. unfold fate. cbn. rewrite AA. destruct (F1 k j' HA) as [[G G']|[(w & r' & y & pre & G1 & G2 & G3)|[(G1 & G2 & G3 & G4)|G]]]; cbn in *.
        -- left. auto.
        -- destruct (Nat.eq_dec w i) as [->|NE].
           ++ rewrite H in G1. injection G1 as <- <- <-. right. right. left. rewrite app_nil_r in G2. subst pre. split; auto. split; [intros X; eapply SQ; eauto|]. split; [apply LT; auto|].
              intros w r' y X. rewrite (nth_error_put ws i _ _ w H) in X. destruct (Nat.eqb_spec w i) as [E|E]; [discriminate|]. apply E. eapply (unique_runner t _ w i id HI); [exact X|exact H|left; reflexivity|left; reflexivity].
           ++ right. left. exists w, r', y, pre. rewrite (nth_error_put ws i _ _ w H). destruct (Nat.eqb_spec w i) as [E|E]; [congruence|]. auto.
        -- right. right. left. split; auto. split; auto. split; auto. intros w r' y X. rewrite (nth_error_put ws i _ _ w H) in X. destruct (Nat.eqb_spec w i) as [E|E]; [discriminate|eapply G4; eauto].
        -- right. right. right. apply drops_in. auto.
      * intros k Hk. rewrite AA. auto.
      * intros k j' X. rewrite in_app_iff, AA. destruct (F3 k j' X). auto.
    + apply (fates_same t _ _ _ F); try discriminate; try reflexivity. intros. cbn. apply (run_put_same _ _ _ _ _ _ _ _ H); discriminate.
  - destruct H. apply (fates_same t _ _ _ F); try discriminate; try reflexivity. intros. cbn. apply (run_put_same _ _ _ _ _ _ _ _ H); discriminate.
Qed.
Lemma fates_init n c d : fates [] (init n c d).
Proof. constructor; cbn; tauto. Qed.
Lemma all_steps n c d t s : steps h (init n c d) t s -> inv s /\ hist t s /\ fates t s.
Proof.
  intros H. remember (init n c d) as s0 eqn:E. induction H as [|s t s' x s'' H IH HS]; [subst; split; [apply inv_init|split; [apply hist_init|apply fates_init]]|]. destruct (IH E) as (A & B & C).
  split; [eapply inv_step; eauto|]. split; [eapply hist_step; eauto|eapply fates_step; eauto].
Qed.
Lemma phase_steps n c d t s : disciplined false 0 c -> steps h (init n c d) t s -> phase t s.
Proof.
  intros Hc H. remember (init n c d) as s0 eqn:E. induction H as [|s t s' x s'' H IH HS].
  - subst. left. exists false, 0. cbn. split; auto. split; auto. unfold pending, init. cbn. induction n; auto.
  - subst. specialize (IH eq_refl). eapply phase_step; eauto. apply (hist_steps _ _ _ _ _ H).
Qed.
Lemma pushed_cds n c d t s : disciplined false 0 c -> steps h (init n c d) t s -> forall id j, In (LAccept id j) t -> 0 < cds j.
Proof.
  intros Hc H. remember (init n c d) as s0 eqn:E. induction H as [|s t s' x s'' H IH HS]; [intros id j []|]. intros id j HA. rewrite in_app_iff in HA. destruct HA as [HA|[HA|[]]]; [apply (IH E id j HA)|]. subst.
  pose proof (phase_steps n c d t s' Hc H) as P. destruct HS as [HS|[HS|HS]]; inversion HS; subst. destruct P as [(o & m & A & _)|[Q _]]; cbn in *; [inversion A|inversion Q]; subst; auto.
Qed.
Lemma before_le (j pre r : job D) : j = pre ++ r -> cds r = 0 -> 0 < cds j -> nacts (before j) <= nacts pre.
Proof.
  revert j. induction pre as [|a pre IH]; intros j -> H0 H1; cbn in *; [lia|]. destruct a as [f|]; cbn.
  - change (nacts (Act f :: before (pre ++ r))) with (S (nacts (before (pre ++ r)))). change (nacts (Act f :: pre)) with (S (nacts pre)). apply le_n_S. apply IH; auto.
  - change (nacts []) with 0. lia.
Qed.
Lemma sum_zero {A} (f : A -> nat) l : list_sum (map f l) = 0 -> forall x, In x l -> f x = 0.
Proof. induction l as [|a l IH]; cbn [map]; [intros _ x []|]. rewrite sum_cons. intros H x [->|Hx]; [lia|]. apply IH; auto. lia. Qed.

End P.
