(** One batch of jobs on the pool: when the latch is passed, what each job is responsible for is as if the job had run alone. *)
Require Import List Bool String Arith Lia Permutation Sorted.
Require Import Verif.Pool Verif.PoolSpec Verif.PoolProofs.
Import ListNotations.

Lemma firstn_S_nth {A} (a : A) : forall l n, n < List.length l -> firstn (S n) l = firstn n l ++ [nth n l a].
Proof. induction l as [|x r IH]; intros [|n] Hn; cbn in Hn; try lia; auto. cbn [nth app]. change (x :: firstn (S n) r = x :: (firstn n r ++ [nth n r a])). f_equal. apply IH. lia. Qed.
Section B.
Context {D : Type} (h : string -> D -> D).
Notation worker := (worker D). Notation state := (state D).
Definition l0 : local := (true, ""%string).
(** a job running alone *)
Fixpoint alone (j : job D) (l : local) (d : D) : local * D :=
  match j with [] => (l, d) | Act f :: r => let '(l', d') := f l d in alone r l' d' | CountDown :: r => alone r l d end.
(** the jobs one after the other *)
Definition in_turn (js : list (job D)) (d : D) : D := fold_left (fun d j => snd (alone j l0 d)) js d.
Lemma alone_app a b l d : alone (a ++ b) l d = let '(l', d') := alone a l d in alone b l' d'.
Proof. revert l d. induction a as [|[f|] a IH]; intros l d; cbn; auto. destruct (f l d) as (l' & d'). apply IH. Qed.

Context {T U : Type} (I : D -> Prop) (proj : nat -> D -> T) (rest : D -> U) (js : list (job D)).
Hypothesis H_inv : forall i f l d, In (Act f) (nth i js []) -> I d -> I (snd (f l d)).
Hypothesis H_own : forall i f l d d', In (Act f) (nth i js []) -> I d -> I d' -> proj i d = proj i d' -> fst (f l d) = fst (f l d') /\ proj i (snd (f l d)) = proj i (snd (f l d')).
Hypothesis H_frame : forall i k f l d, In (Act f) (nth i js []) -> I d -> k <> i -> proj k (snd (f l d)) = proj k d.
Hypothesis H_rest : forall i f l d, In (Act f) (nth i js []) -> I d -> rest (snd (f l d)) = rest d.

Lemma alone_inv i : forall j l d, incl j (nth i js []) -> I d -> I (snd (alone j l d)) /\ (forall k, k <> i -> proj k (snd (alone j l d)) = proj k d) /\ rest (snd (alone j l d)) = rest d.
Proof.
  induction j as [|[f|] j IH]; intros l d Hi Hd; cbn [alone]; auto.
  - assert (HF : In (Act f) (nth i js [])) by (apply Hi; left; reflexivity). pose proof (H_inv i f l d HF Hd) as A. pose proof (fun k => H_frame i k f l d HF Hd) as B. pose proof (H_rest i f l d HF Hd) as C.
    destruct (f l d) as (l' & d'). cbn in *. destruct (IH l' d' (fun x Hx => Hi x (or_intror Hx)) A) as (X & Y & Z). split; auto. split; [|congruence]. intros k Hk. rewrite Y, B; auto.
  - apply IH; auto. intros x Hx. apply Hi. right. auto.
Qed.
Lemma alone_own i : forall j l d d', incl j (nth i js []) -> I d -> I d' -> proj i d = proj i d' ->
  fst (alone j l d) = fst (alone j l d') /\ proj i (snd (alone j l d)) = proj i (snd (alone j l d')).
Proof.
  induction j as [|[f|] j IH]; intros l d d' Hi Hd Hd' E; cbn [alone]; auto.
  - assert (HF : In (Act f) (nth i js [])) by (apply Hi; left; reflexivity). pose proof (H_inv i f l d HF Hd) as A. pose proof (H_inv i f l d' HF Hd') as A'. destruct (H_own i f l d d' HF Hd Hd' E) as [B C].
    destruct (f l d) as (l1 & d1), (f l d') as (l2 & d2). cbn in *. subst l2. apply IH; auto. intros x Hx. apply Hi. right. auto.
  - apply IH; auto. intros x Hx. apply Hi. right. auto.
Qed.
Lemma in_turn_own d : I d -> forall n, n <= List.length js -> let d' := in_turn (firstn n js) d in
  I d' /\ rest d' = rest d /\ (forall i, i < n -> proj i d' = proj i (snd (alone (nth i js []) l0 d))) /\ (forall i, n <= i -> proj i d' = proj i d).
Proof.
  intros Hd. induction n as [|n IH]; intros Hn; cbv zeta.
  - cbn. split; auto. split; auto. split; auto. intros i Hi. lia.
  - destruct (IH ltac:(lia)) as (A & B & C & E). set (d1 := in_turn (firstn n js) d) in *.
    assert (X : in_turn (firstn (S n) js) d = snd (alone (nth n js []) l0 d1)).
    { assert (F : firstn (S n) js = firstn n js ++ [nth n js []]) by (apply firstn_S_nth; lia).
      unfold in_turn. rewrite F, fold_left_app. reflexivity. }
    rewrite X. destruct (alone_inv n (nth n js []) l0 d1 (incl_refl _) A) as (P & Q & R). split; auto. split; [congruence|]. split.
    + intros i Hi. destruct (Nat.eq_dec i n) as [->|N]; [|rewrite Q by auto; apply C; lia]. apply alone_own; auto using incl_refl.
    + intros i Hi. rewrite Q by lia. apply E. lia.
Qed.

Hypothesis H_last : Forall (fun j => exists acts, j = acts ++ [CountDown] /\ cds acts = 0) js.
Context (k : client D) (n0 : nat) (d0 : D).
Hypothesis H_d0 : I d0.
Hypothesis H_ok : forall i, i < List.length js -> fst (fst (alone (nth i js []) l0 d0)) = true.

Definition running_batch (s : state) (id : nat) (r : job D) (x : local) : Prop :=
  exists i pre d', i < List.length js /\ id = n0 + i /\ nth i js [] = pre ++ r /\ alone pre l0 d0 = (x, d') /\ I d' /\ proj i d' = proj i (data s).
Record binv (s : state) : Prop := mkbinv {
  b_prog : (prog s = batch js k /\ accepted s = n0) \/ exists p, p <= List.length js /\ accepted s = n0 + p /\ prog s = pushes (skipn p js) (CWait k);
  b_acc : accepting s = true /\ joining s = None;
  b_data : I (data s) /\ rest (data s) = rest d0;
  b_queue : forall id j, In (id, j) (queue s) -> exists i, i < List.length js /\ id = n0 + i /\ j = nth i js [];
  b_run : forall w id r x, nth_error (workers s) w = Some (WRun id r x) -> (id < n0 /\ r = [] /\ fst x = true) \/ running_batch s id r x;
  b_no : forall w, In w (workers s) -> w <> WDone /\ forall id m, w <> WHandle id m;
  b_proj : forall i, i < List.length js ->
    ((accepted s <= n0 + i \/ In (n0 + i) (map fst (queue s))) /\ proj i (data s) = proj i d0) \/
    (exists w r x, nth_error (workers s) w = Some (WRun (n0 + i) r x)) \/
    (n0 + i < accepted s /\ ~ In (n0 + i) (map fst (queue s)) /\ (forall w r x, nth_error (workers s) w <> Some (WRun (n0 + i) r x)) /\ proj i (data s) = proj i (snd (alone (nth i js []) l0 d0)))
}.

Lemma binv_start t s : hist t s -> prog s = batch js k -> accepted s = n0 -> data s = d0 -> accepting s = true -> joining s = None -> idle s -> binv s.
Proof.
  intros HI P A E1 E2 E3 [Q W]. constructor; auto.
  - rewrite E1. auto.
  - rewrite Q. intros id j [].
  - intros w id r x Hw. left. destruct (W _ (nth_error_In _ _ Hw)) as (_ & _ & X). destruct (X id r x eq_refl). split; auto. rewrite <- A. destruct (hist_nodup t s HI) as (_ & _ & N3 & _ & _ & _ & N7). apply N7. left. apply N3. apply in_flat_map. exists (WRun id r x). split; [eapply nth_error_In; eauto|left; reflexivity].
  - intros w Hw. destruct (W w Hw) as (X & Y & _). auto.
  - intros i Hi. left. split; [left; lia|]. rewrite E1. reflexivity.
Qed.

(** a worker changes between states in which it runs nothing *)
Lemma binv_same s s' : binv s -> prog s' = prog s -> accepting s' = accepting s -> joining s' = joining s -> data s' = data s -> accepted s' = accepted s -> queue s' = queue s ->
  (forall w id r x, nth_error (workers s') w = Some (WRun id r x) <-> nth_error (workers s) w = Some (WRun id r x)) ->
  (forall w, In w (workers s') -> w <> WDone /\ forall id m, w <> WHandle id m) -> binv s'.
Proof.
  intros [B1 B2 B3 B4 B5 B6 B7] E1 E2 E3 E4 E5 E6 W N. constructor; rewrite ?E1, ?E2, ?E3, ?E4, ?E5, ?E6; auto.
  - intros w id r x Hw. apply W in Hw. destruct (B5 w id r x Hw) as [X|X]; [auto|right]. unfold running_batch in *. rewrite E4. exact X.
  - intros i Hi. destruct (B7 i Hi) as [X|[(w & r & x & X)|(X1 & X2 & X3 & X4)]]; [left; auto|right; left|right; right].
    + exists w, r, x. apply W. auto.
    + repeat split; auto. intros w r x Y. apply W in Y. eapply X3; eauto.
Qed.
Lemma no_put (ws : list worker) i o x : nth_error ws i = Some o -> (forall w, In w ws -> w <> WDone /\ forall id m, w <> WHandle id m) -> (x <> WDone /\ forall id m, x <> WHandle id m) ->
  forall w, In w (put ws i x) -> w <> WDone /\ forall id m, w <> WHandle id m.
Proof. intros H N X w Hw. destruct (in_put _ _ _ _ _ H Hw) as [->|Y]; auto. Qed.
Lemma job_full i : i < List.length js -> forall pre r, nth i js [] = pre ++ r -> cds r = 0 -> r = [].
Proof.
  intros Hi pre r E C. rewrite Forall_forall in H_last. destruct (H_last (nth i js []) (nth_In _ _ Hi)) as (acts & A & _). rewrite A in E. destruct r as [|a r] using rev_ind; auto. exfalso. rewrite app_assoc in E. apply app_inj_tail in E as [_ E]. subst a. rewrite cds_app in C. unfold cds in C at 2. cbn in C. lia.
Qed.

Lemma binv_step t s x s' : inv s -> hist t s -> binv s -> step h s x s' -> x <> LPass -> binv s'.
Proof.
  intros Iv HI B HS HX. destruct HS as [HS|[HS|HS]].
  - destruct B as [B1 B2 B3 B4 B5 B6 B7]. destruct HS; cbn in *.
    + exfalso. destruct B1 as [[B1 _]|(p & _ & _ & B1)]; [discriminate|]. destruct (skipn p js); discriminate.
    + destruct B1 as [[B1 BA]|(p & _ & _ & B1)]; [|destruct (skipn p js); discriminate]. injection B1 as -> ->. constructor; cbn; auto. right. exists 0. split; [lia|]. split; [lia|]. reflexivity.
    + congruence.
    + constructor; cbn; auto.
    + destruct B1 as [[B1 BA]|(p & Hp & BA & B1)]; [discriminate|]. destruct (skipn p js) as [|j' r] eqn:SK; [discriminate|]. cbn in B1. injection B1 as -> ->. 
      assert (Hp' : p < List.length js). { assert (List.length (skipn p js) = List.length js - p) by apply skipn_length. rewrite SK in H0. cbn in H0. lia. }
      assert (NJ : nth p js [] = j'). { rewrite <- (firstn_skipn p js), SK. rewrite app_nth2; rewrite firstn_length; [|lia]. replace (p - Nat.min p (List.length js)) with 0 by lia. reflexivity. }
      assert (SK' : skipn (S p) js = r). { clear - SK. revert js SK. induction p as [|p IH]; intros [|a l] SK; cbn in *; try discriminate; [congruence|]. apply IH. exact SK. }
      assert (W : forall w id r x, nth_error ws' w = Some (WRun id r x) <-> nth_error ws w = Some (WRun id r x)).
      { intros w id rr xx. destruct (notify_cases _ _ H) as [(i' & N & ->)|[N ->]]; [|reflexivity]. apply (run_put_same _ _ _ _ _ _ _ _ N); discriminate. }
      constructor; cbn; auto.
      * right. exists (S p). split; [lia|]. split; [lia|]. rewrite SK'. reflexivity.
      * intros id j Hj. rewrite in_app_iff in Hj. destruct Hj as [Hj|[Hj|[]]]; auto. injection Hj as <- <-. exists p. auto.
      * intros w id rr xx Hw. apply W in Hw. exact (B5 w id rr xx Hw).
      * intros w Hw. destruct (notify_cases _ _ H) as [(i' & N & ->)|[N ->]]; auto. eapply no_put; eauto. split; discriminate.
      * intros i Hi. rewrite map_app. cbn [map fst]. destruct (B7 i Hi) as [[X Y]|[(w & rr & xx & X)|(X1 & X2 & X3 & X4)]].
        -- left. split; auto. rewrite in_app_iff. cbn. destruct X as [X|X]; [|auto]. destruct (Nat.eq_dec (n0 + i) n); [auto|left; lia].
        -- right. left. exists w, rr, xx. apply W. auto.
        -- right. right. split; [lia|]. split; [rewrite in_app_iff; cbn; intros [Y|[Y|[]]]; [auto|lia]|]. split; auto. intros w rr xx Y. apply W in Y. eapply X3; eauto.
    + destruct B2. discriminate.
    + exfalso. destruct B1 as [[B1 _]|(p & _ & _ & B1)]; [discriminate|]. destruct (skipn p js); discriminate.
    + destruct B2. discriminate.
    + destruct B2. discriminate.
    + exfalso. destruct B1 as [[B1 _]|(p & _ & _ & B1)]; [discriminate|]. destruct (skipn p js); discriminate.
  - destruct (hist_nodup t s HI) as (_ & ND & RS & SD & SQ & DQ & LT). destruct HS.
    + eapply binv_same; eauto; [intros; cbn; apply (run_put_same _ _ _ _ _ _ _ _ H); discriminate|]. eapply no_put; eauto; [apply (b_no _ B)|split; discriminate].
    + eapply binv_same; eauto; [intros; cbn; apply (run_put_same _ _ _ _ _ _ _ _ H); discriminate|]. eapply no_put; eauto; [apply (b_no _ B)|split; discriminate].
    + destruct (b_acc _ B). discriminate.
    + (* pop *) destruct B as [B1 B2 B3 B4 B5 B6 B7]. cbn in *. destruct (B4 id j (or_introl eq_refl)) as (i0 & Hi0 & -> & ->).
      assert (NQ : ~ In (n0 + i0) (map fst q)). { pose proof (h_sort _ _ HI) as SS. cbn in SS. clear - SS. induction (starts t) as [|a' l' IH]; cbn in SS; inversion SS; subst; auto. rewrite Forall_forall in H2. intros X. apply H2 in X. lia. }
      assert (NW : forall w r x, nth_error ws w <> Some (WRun (n0 + i0) r x)). { intros w r x Y. apply (SQ (n0 + i0)); [|left; reflexivity]. apply RS. apply in_flat_map. exists (WRun (n0 + i0) r x). split; [eapply nth_error_In; eauto|left; reflexivity]. }
      constructor; cbn; auto.
      * intros w id r x Hw. rewrite (nth_error_put ws i _ _ w H) in Hw. destruct (Nat.eqb_spec w i) as [E|E]; [|exact (B5 w id r x Hw)]. injection Hw as <- <- <-. right. exists i0, [], d0. split; auto. split; auto. split; auto. split; auto. split; auto.
        destruct (B7 i0 Hi0) as [[X Y]|[(w' & r' & x' & X)|(X1 & X2 & _)]]; [cbn; congruence|destruct (NW w' r' x' X)|exfalso; apply X2; left; reflexivity].
      * eapply no_put; eauto. split; discriminate.
      * intros i1 Hi1. destruct (Nat.eq_dec i1 i0) as [->|NE].
        -- right. left. exists i, (nth i0 js []), (true, ""%string). rewrite (nth_error_put ws i _ _ i H), Nat.eqb_refl. reflexivity.
        -- destruct (B7 i1 Hi1) as [[X Y]|[(w & rr & xx & X)|(X1 & X2 & X3 & X4)]].
           ++ left. split; auto. destruct X as [X|[X|X]]; auto. lia.
           ++ right. left. exists w, rr, xx. rewrite (nth_error_put ws i _ _ w H). destruct (Nat.eqb_spec w i) as [E|E]; [subst w; congruence|]. auto.
           ++ right. right. split; auto. split; auto. split; auto. intros w rr xx Y. rewrite (nth_error_put ws i _ _ w H) in Y. destruct (Nat.eqb_spec w i) as [E|E]; [|eapply X3; eauto]. injection Y as Y _ _. lia.
    + (* act *) destruct B as [B1 B2 B3 B4 B5 B6 B7]. cbn in *. destruct B3 as [B3 B3'].
      destruct (B5 i id (Act f :: r) x H) as [(_ & X & _)|(i0 & pre & d1 & Hi0 & -> & EJ & EA & I1 & P1)]; [discriminate|]. cbn in P1.
      assert (HF : In (Act f) (nth i0 js [])) by (rewrite EJ; apply in_app_iff; right; left; reflexivity).
      assert (ED : d' = snd (f x d)) by (rewrite H0; reflexivity).
      assert (ID : I d') by (rewrite ED; eapply H_inv; eauto). assert (FR : forall k', k' <> i0 -> proj k' d' = proj k' d) by (intros k' Hk; rewrite ED; eapply H_frame; eauto).
      destruct (H_own i0 f x d1 d HF I1 B3 P1) as [Q1 Q2]. rewrite H0 in Q1, Q2. cbn in Q1, Q2.
      constructor; cbn; auto.
      * split; auto. rewrite ED. rewrite (H_rest i0); auto.
      * intros w id' r' y Hw. rewrite (nth_error_put ws i _ _ w H) in Hw. destruct (Nat.eqb_spec w i) as [E|E].
        -- injection Hw as <- <- <-. right. exists i0, (pre ++ [Act f]), (snd (f x d1)). split; auto. split; auto. split; [rewrite <- app_assoc; exact EJ|]. split; [rewrite alone_app, EA; cbn; destruct (f x d1) as (u & v); cbn in *; congruence|]. split; [eapply H_inv; eauto|]. exact Q2.
        -- destruct (B5 w id' r' y Hw) as [X|(i1 & pre1 & d2 & Hi1 & E1 & E2 & E3 & I2 & P2)]; [auto|right]. exists i1, pre1, d2. repeat split; auto. cbn. cbn in P2. rewrite FR; auto. intros ->.
           apply E. eapply (unique_runner t _ w i (n0 + i0) HI); [exact Hw|exact H|left; auto|left; reflexivity].
      * eapply no_put; eauto. split; discriminate.
      * intros i1 Hi1. destruct (Nat.eq_dec i1 i0) as [->|NE].
        -- right. left. exists i, r, x'. rewrite (nth_error_put ws i _ _ i H), Nat.eqb_refl. reflexivity.
        -- destruct (B7 i1 Hi1) as [[X Y]|[(w & rr & xx & X)|(X1 & X2 & X3 & X4)]].
           ++ left. split; auto. rewrite FR; auto.
           ++ right. left. exists w, rr, xx. rewrite (nth_error_put ws i _ _ w H). destruct (Nat.eqb_spec w i) as [E|E]; [subst w; rewrite H in X; injection X as X _ _; lia|]. auto.
           ++ right. right. split; auto. split; auto. split; [|rewrite FR; auto]. intros w rr xx Y. rewrite (nth_error_put ws i _ _ w H) in Y. destruct (Nat.eqb_spec w i) as [E|E]; [|eapply X3; eauto]. injection Y as Y _ _. lia.
    + (* count down *) destruct B as [B1 B2 B3 B4 B5 B6 B7]. cbn in *.
      destruct (B5 i id (CountDown :: r) x H) as [(_ & X & _)|(i0 & pre & d1 & Hi0 & -> & EJ & EA & I1 & P1)]; [discriminate|]. cbn in P1.
      constructor; cbn; auto.
      * intros w id' r' y Hw. rewrite (nth_error_put ws i _ _ w H) in Hw. destruct (Nat.eqb_spec w i) as [E|E]; [|exact (B5 w id' r' y Hw)].
        injection Hw as <- <- <-. right. exists i0, (pre ++ [CountDown]), d1. split; auto. split; auto. split; [rewrite <- app_assoc; exact EJ|]. split; [rewrite alone_app, EA; reflexivity|]. auto.
      * eapply no_put; eauto. split; discriminate.
      * intros i1 Hi1. destruct (Nat.eq_dec i1 i0) as [->|NE].
        -- right. left. exists i, r, x. rewrite (nth_error_put ws i _ _ i H), Nat.eqb_refl. reflexivity.
        -- destruct (B7 i1 Hi1) as [[X Y]|[(w & rr & xx & X)|(X1 & X2 & X3 & X4)]]; [left; auto| |].
           ++ right. left. exists w, rr, xx. rewrite (nth_error_put ws i _ _ w H). destruct (Nat.eqb_spec w i) as [E|E]; [subst w; rewrite H in X; injection X as X _ _; lia|]. auto.
           ++ right. right. split; auto. split; auto. split; auto. intros w rr xx Y. rewrite (nth_error_put ws i _ _ w H) in Y. destruct (Nat.eqb_spec w i) as [E|E]; [|eapply X3; eauto]. injection Y as Y _ _. lia.
    + (* return *) destruct B as [B1 B2 B3 B4 B5 B6 B7]. cbn in *. constructor; cbn; auto.
      * intros w id' r' y Hw. rewrite (nth_error_put ws i _ _ w H) in Hw. destruct (Nat.eqb_spec w i) as [E|E]; [discriminate|exact (B5 w id' r' y Hw)].
      * eapply no_put; eauto. split; discriminate.
      * assert (RI : In id (flat_map ids ws)) by (apply in_flat_map; eexists; split; [eapply nth_error_In; eauto|left; reflexivity]).
        intros i1 Hi1. destruct (B7 i1 Hi1) as [[X Y]|[(w & rr & xx & X)|(X1 & X2 & X3 & X4)]]; [left; auto| |].
        -- destruct (Nat.eqb_spec w i) as [E|E].
           ++ subst w. rewrite H in X. injection X as -> <- <-. right. right. split; [apply LT; auto|]. split; [intros Y; eapply SQ; eauto|]. split.
              { intros w rr xx Y. rewrite (nth_error_put ws i _ _ w H) in Y. destruct (Nat.eqb_spec w i) as [E|E]; [discriminate|]. apply E. eapply (unique_runner t _ w i _ HI); [exact Y|exact H|left; reflexivity|left; reflexivity]. }
              destruct (B5 i _ _ _ H) as [(Y & _ & _)|(i0 & pre & d1 & Hi0 & E0 & EJ & EA & I1 & P1)]; [lia|]. assert (i1 = i0) by lia. subst i0. cbn in P1. rewrite app_nil_r in EJ. rewrite EJ, EA. cbn. congruence.
           ++ right. left. exists w, rr, xx. rewrite (nth_error_put ws i _ _ w H). rewrite (proj2 (Nat.eqb_neq w i) E). auto.
        -- right. right. split; auto. split; auto. split; auto. intros w rr xx Y. rewrite (nth_error_put ws i _ _ w H) in Y. destruct (Nat.eqb_spec w i) as [E|E]; [discriminate|eapply X3; eauto].
    + (* failed *) exfalso. destruct B as [B1 B2 B3 B4 B5 B6 B7]. cbn in *. destruct (B5 i id [] (false, msg) H) as [(_ & _ & X)|(i0 & pre & d1 & Hi0 & E0 & EJ & EA & I1 & P1)]; [discriminate|]. rewrite app_nil_r in EJ. pose proof (H_ok i0 Hi0) as X. rewrite EJ, EA in X. discriminate.
    + exfalso. destruct (b_no _ B (WHandle id msg)) as [_ X]; [eapply nth_error_In; eauto|]. eapply X; eauto.
  - destruct HS. eapply binv_same; eauto; [intros; cbn; apply (run_put_same _ _ _ _ _ _ _ _ H); discriminate|]. eapply no_put; eauto; [apply (b_no _ B)|split; discriminate].
Qed.

Lemma binv_done s k' : binv s -> pending s = 0 -> prog s = CWait k' ->
  k' = k /\ queue s = [] /\ I (data s) /\ rest (data s) = rest d0 /\ forall i, i < List.length js -> proj i (data s) = proj i (snd (alone (nth i js []) l0 d0)).
Proof.
  intros [B1 B2 B3 B4 B5 B6 B7] P0 PE. unfold pending in P0.
  assert (NA : accepted s = n0 + List.length js /\ k' = k).
  { destruct B1 as [[B1 _]|(p & Hp & BA & B1)]; rewrite PE in B1; [discriminate|]. destruct (skipn p js) as [|j r] eqn:SK; [|discriminate]. cbn in B1. injection B1 as ->. split; auto. assert (X : List.length (skipn p js) = 0) by (rewrite SK; reflexivity). rewrite skipn_length in X. lia. }
  destruct NA as [NA ->]. destruct B3 as [B3 B3'].
  assert (Q : queue s = []).
  { destruct (queue s) as [|[id j] q] eqn:E; auto. exfalso. destruct (B4 id j ltac:(left; reflexivity)) as (i & Hi & -> & ->). cbn [map snd] in P0. rewrite sum_cons in P0. rewrite Forall_forall in H_last. destruct (H_last (nth i js []) (nth_In _ _ Hi)) as (acts & A & _). cbn in P0. rewrite A, cds_app in P0. unfold cds at 2 in P0. cbn in P0. lia. }
  repeat split; auto. intros i Hi. destruct (B7 i Hi) as [[X Y]|[(w & r & x & X)|(X1 & X2 & X3 & X4)]]; auto.
  - exfalso. rewrite Q in X. cbn in X. lia.
  - destruct (B5 _ _ _ _ X) as [(Y & _ & _)|(i0 & pre & d1 & Hi0 & E0 & EJ & EA & I1 & P1)]; [lia|]. assert (i = i0) by lia. subst i0.
    assert (r = []). { eapply job_full; eauto. apply (sum_zero wcds (workers s) ltac:(lia) (WRun (n0 + i) r x)). eapply nth_error_In; eauto. }
    subst r. rewrite app_nil_r in EJ. rewrite EJ, EA. cbn. congruence.
Qed.
Lemma binv_idle s k' : binv s -> pending s = 0 -> prog s = CWait k' -> idle s.
Proof.
  intros B P0 PE. destruct (binv_done s k' B P0 PE) as (_ & Q & _). destruct B as [B1 B2 B3 B4 B5 B6 B7]. split; auto. intros w Hw. destruct (B6 w Hw) as [X Y]. split; auto. split; auto. intros id r x ->.
  destruct (In_nth_error _ _ Hw) as [wi Hwi]. destruct (B5 _ _ _ _ Hwi) as [(_ & Z1 & Z2)|(i0 & pre & d1 & Hi0 & E0 & EJ & EA & I1 & P1)]; auto.
  assert (r = []). { eapply job_full; eauto. unfold pending in P0. apply (sum_zero wcds (workers s) ltac:(lia) (WRun id r x)). eapply nth_error_In; eauto. }
  subst r. split; auto. rewrite app_nil_r in EJ. pose proof (H_ok i0 Hi0) as Z. rewrite EJ, EA in Z. exact Z.
Qed.
End B.

(** *** the theorem *)
Lemma steps_reach D (h : string -> D -> D) n c d t0 s0 t s : steps h (init n c d) t0 s0 -> steps h s0 t s -> steps h (init n c d) (t0 ++ t) s.
Proof. intros H0 H. induction H as [|s0 t s1 x s2 H IH HS]; [rewrite app_nil_r; auto|]. rewrite app_assoc. econstructor; eauto. Qed.

(** up to the passing of the latch, each job has done the first part of its work alone *)
Lemma batch_during {D T U} (h : string -> D -> D) (I : D -> Prop) (proj : nat -> D -> T) (rest : D -> U) (js : list (job D)) (k : client D) n c d t0 s0 t s :
  (forall i f l d, In (Act f) (nth i js []) -> I d -> I (snd (f l d))) ->
  (forall i f l d d', In (Act f) (nth i js []) -> I d -> I d' -> proj i d = proj i d' -> fst (f l d) = fst (f l d') /\ proj i (snd (f l d)) = proj i (snd (f l d'))) ->
  (forall i k f l d, In (Act f) (nth i js []) -> I d -> k <> i -> proj k (snd (f l d)) = proj k d) ->
  (forall i f l d, In (Act f) (nth i js []) -> I d -> rest (snd (f l d)) = rest d) ->
  Forall (fun j => exists acts, j = acts ++ [CountDown] /\ cds acts = 0) js ->
  I (data s0) -> (forall i, i < List.length js -> fst (fst (alone (nth i js []) l0 (data s0))) = true) ->
  disciplined false 0 c -> steps h (init n c d) t0 s0 -> prog s0 = batch js k -> idle s0 ->
  steps h s0 t s -> ~ In LPass t ->
  I (data s) /\ rest (data s) = rest (data s0) /\
  forall i, i < List.length js -> exists pre r, nth i js [] = pre ++ r /\ proj i (data s) = proj i (snd (alone pre l0 (data s0))).
Proof.
  intros H1 H2 H3 H4 HL HI HO Hc HR HP HD HS HN.
  destruct (all_steps h n c d t0 s0 HR) as (Iv0 & Hi0 & _).
  assert (AC : accepting s0 = true /\ joining s0 = None). { destruct (phase_steps h n c d t0 s0 Hc HR) as [(o & m & _ & _ & A & B & _)|[Q _]]; auto. rewrite HP in Q. inversion Q. }
  assert (B : binv I proj rest js k (accepted s0) (data s0) s).
  { assert (G : forall sa t' s1', steps h sa t' s1' -> sa = s0 -> ~ In LPass t' -> binv I proj rest js k (accepted s0) (data s0) s1'); [|eapply G; eauto].
    clear t s HN HS. intros sa t s1 HS1. induction HS1 as [sa|sa t s1 x s2 HS1 IH HX]; intros -> HN.
    - eapply binv_start; eauto; tauto.
    - assert (HN1 : ~ In LPass t) by (intros X; apply HN; apply in_app_iff; auto). assert (NX : x <> LPass) by (intros ->; apply HN; apply in_app_iff; right; left; reflexivity).
      specialize (IH eq_refl HN1). destruct (all_steps h n c d _ _ (steps_reach _ _ _ _ _ _ _ _ _ HR HS1)) as (Iv & Hi & _). eapply binv_step; eauto. }
  destruct B as [_ _ [B1 B2] _ BR _ BP]. split; auto. split; auto. intros i Hi. destruct (BP i Hi) as [[_ X]|[(w & r & x & X)|(_ & _ & _ & X)]].
  - exists [], (nth i js []). auto.
  - destruct (BR w _ r x X) as [(Y & _)|(i' & pre & d' & Hi' & EI & EN & EA & _ & EP)]; [lia|]. assert (i' = i) by lia. subst i'. exists pre, r. split; auto. rewrite EA. auto.
  - exists (nth i js []), []. rewrite app_nil_r. auto.
Qed.
Lemma batch_result_inv {D T U} (h : string -> D -> D) (I : D -> Prop) (proj : nat -> D -> T) (rest : D -> U) (js : list (job D)) (k : client D) n c d t0 s0 t s :
  (forall i f l d, In (Act f) (nth i js []) -> I d -> I (snd (f l d))) ->
  (forall i f l d d', In (Act f) (nth i js []) -> I d -> I d' -> proj i d = proj i d' -> fst (f l d) = fst (f l d') /\ proj i (snd (f l d)) = proj i (snd (f l d'))) ->
  (forall i k f l d, In (Act f) (nth i js []) -> I d -> k <> i -> proj k (snd (f l d)) = proj k d) ->
  (forall i f l d, In (Act f) (nth i js []) -> I d -> rest (snd (f l d)) = rest d) ->
  Forall (fun j => exists acts, j = acts ++ [CountDown] /\ cds acts = 0) js ->
  I (data s0) -> (forall i, i < List.length js -> fst (fst (alone (nth i js []) l0 (data s0))) = true) ->
  disciplined false 0 c -> steps h (init n c d) t0 s0 -> prog s0 = batch js k -> idle s0 ->
  steps h s0 (t ++ [LPass]) s -> ~ In LPass t ->
  I (data s) /\ prog s = k /\ idle s /\ rest (data s) = rest (in_turn js (data s0)) /\ forall i, i < List.length js -> proj i (data s) = proj i (in_turn js (data s0)).
Proof.
  intros H1 H2 H3 H4 HL HI HO Hc HR HP HD HS HN.
  destruct (all_steps h n c d t0 s0 HR) as (Iv0 & Hi0 & _).
  assert (AC : accepting s0 = true /\ joining s0 = None). { destruct (phase_steps h n c d t0 s0 Hc HR) as [(o & m & _ & _ & A & B & _)|[Q _]]; auto. rewrite HP in Q. inversion Q. }
  assert (SP : exists s1, steps h s0 t s1 /\ step h s1 LPass s). { remember (t ++ [LPass]) as tt eqn:E. destruct HS as [|s0 t' s1 x s2 HS HX]; [destruct t; discriminate|]. apply app_inj_tail in E as [-> ->]. eauto. }
  destruct SP as (s1 & HS1 & HX).
  assert (B : binv I proj rest js k (accepted s0) (data s0) s1).
  { assert (G : forall sa t' s1', steps h sa t' s1' -> sa = s0 -> ~ In LPass t' -> binv I proj rest js k (accepted s0) (data s0) s1'); [|eapply G; eauto].
    clear t s s1 HN HS HS1 HX. intros sa t s1 HS1. induction HS1 as [sa|sa t s1 x s2 HS1 IH HX]; intros -> HN.
    - eapply binv_start; eauto; tauto.
    - assert (HN1 : ~ In LPass t) by (intros X; apply HN; apply in_app_iff; auto). assert (NX : x <> LPass) by (intros ->; apply HN; apply in_app_iff; right; left; reflexivity).
      specialize (IH eq_refl HN1). destruct (all_steps h n c d _ _ (steps_reach _ _ _ _ _ _ _ _ _ HR HS1)) as (Iv & Hi & _). eapply binv_step; eauto. }
  assert (PH : phase (t0 ++ t) s1) by (eapply phase_steps; eauto; eapply steps_reach; eauto).
  destruct HX as [HX|[HX|HX]]; [|inversion HX|inversion HX]. inversion HX as [| |q a m ws d1 n1 jn k0 E1 E2 E3| | | | | | |]; subst. set (sx := mkstate q a m 0 ws (CWait k0) d1 n1 jn) in *.
  assert (P0 : pending sx = 0). { destruct PH as [(o & m' & A & X & _)|[A _]]; cbn in *; inversion A; subst. lia. }
  destruct (binv_done I proj rest js HL k (accepted s0) (data s0) sx k0 B P0 eq_refl) as (-> & Q & A1 & A2 & A3).
  destruct (in_turn_own I proj rest js H1 H2 H3 H4 (data s0) HI (List.length js) (le_n _)) as (C1 & C2 & C3 & C4). rewrite firstn_all in *.
  assert (ID : idle sx) by exact (binv_idle I proj rest js HL k (accepted s0) (data s0) HO sx k B P0 eq_refl).
  split; [exact A1|]. split; auto. split; [exact ID|]. cbn in A2, A3. cbn [data]. split; [congruence|]. intros i Hi. rewrite A3, C3 by auto. reflexivity.
Qed.
Lemma batch_result {D T U} (h : string -> D -> D) (I : D -> Prop) (proj : nat -> D -> T) (rest : D -> U) (js : list (job D)) (k : client D) n c d t0 s0 t s :
  (forall i f l d, In (Act f) (nth i js []) -> I d -> I (snd (f l d))) ->
  (forall i f l d d', In (Act f) (nth i js []) -> I d -> I d' -> proj i d = proj i d' -> fst (f l d) = fst (f l d') /\ proj i (snd (f l d)) = proj i (snd (f l d'))) ->
  (forall i k f l d, In (Act f) (nth i js []) -> I d -> k <> i -> proj k (snd (f l d)) = proj k d) ->
  (forall i f l d, In (Act f) (nth i js []) -> I d -> rest (snd (f l d)) = rest d) ->
  Forall (fun j => exists acts, j = acts ++ [CountDown] /\ cds acts = 0) js ->
  I (data s0) -> (forall i, i < List.length js -> fst (fst (alone (nth i js []) l0 (data s0))) = true) ->
  disciplined false 0 c -> steps h (init n c d) t0 s0 -> prog s0 = batch js k -> idle s0 ->
  steps h s0 (t ++ [LPass]) s -> ~ In LPass t ->
  prog s = k /\ idle s /\ rest (data s) = rest (in_turn js (data s0)) /\ forall i, i < List.length js -> proj i (data s) = proj i (in_turn js (data s0)).
Proof. intros H1 H2 H3 H4 HL HI HO Hc HR HP HD HS HN. exact (proj2 (batch_result_inv h I proj rest js k n c d t0 s0 t s H1 H2 H3 H4 HL HI HO Hc HR HP HD HS HN)). Qed.
