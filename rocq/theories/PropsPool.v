(** C18, C19, C20, C45: the thread pool, for all numbers of workers, all client programs and all interleavings. *)
Require Import ZArith List Bool String Arith Lia Permutation Sorted.
Require Import Verif.Pool Verif.PoolSpec Verif.PoolProofs Verif.PoolRun.
Import ListNotations.

Lemma steps_one D h (s s' : state D) x : steps h s [x] s' -> step h s x s'.
Proof.
  intros H. remember [x] as t eqn:E. destruct H as [|s t s1 y s2 H HS]; [discriminate|]. apply (app_inj_tail t []) in E as [-> ->]. remember [] as t eqn:E. destruct H as [|s t s1 z s1' H HS']; auto. destruct t; discriminate.
Qed.
Lemma steps_split D h (s s' : state D) t1 t2 : steps h s (t1 ++ t2) s' -> exists s1, steps h s t1 s1 /\ steps h s1 t2 s'.
Proof.
  revert s'. induction t2 as [|x t2 IH] using rev_ind; intros s' H.
  - rewrite app_nil_r in H. exists s'. split; auto. constructor.
  - rewrite app_assoc in H. inversion H as [? E|? t s1 y ? H1 H2 E1 E2 E3]; [destruct (t1 ++ t2); discriminate|]. apply app_inj_tail in E2 as [-> ->]. destruct (IH s1 H1) as (s2 & A & B). exists s2. split; auto. econstructor; eauto.
Qed.

(** *** C18 *)
(** Jobs are numbered 0, 1, 2, ... in the order in which they are accepted. They are started in this order, none twice; the finished ones are
    among the started ones, none twice; unless the destructor drops jobs, those started are exactly the first ones accepted. *)
Theorem C18_exactly_once_in_order : forall D h n c (d : D) t s, steps h (init n c d) t s ->
  accepts t = seq 0 (List.length (accepts t)) /\
  StronglySorted lt (starts t) /\ incl (starts t) (accepts t) /\ (drops t = [] -> exists rest, accepts t = starts t ++ rest) /\
  NoDup (ends t) /\ incl (ends t) (starts t).
Proof.
  intros D h n c d t s H. destruct (hist_steps h n c d t s H) as [I HI]. destruct (hist_nodup t s HI) as (N1 & N2 & N3 & N4 & N5 & N6 & N7).
  split; [rewrite (h_acc _ _ HI), seq_length; reflexivity|]. split; [eapply sorted_app_l; apply (h_sort _ _ HI)|].
  split; [intros id Hid; rewrite (h_acc _ _ HI), in_seq; assert (id < accepted s) by (apply N7; auto); lia|].
  split; [intros E; exists (map fst (queue s)); rewrite (h_acc _ _ HI), (h_seq _ _ HI E); reflexivity|].
  pose proof (Permutation_NoDup (h_run _ _ HI) N1) as X. split; [apply (nodup_app _ _ X)|]. intros id Hid. eapply Permutation_in; [symmetry; apply (h_run _ _ HI)|]. apply in_app_iff. auto.
Qed.
(** When await_stop has returned: every job accepted before has been finished before (or dropped by the destructor), exactly once; nothing is
    accepted afterwards and no worker does anything any more. *)
Theorem C18_stop : forall D h n c (d : D) t1 t2 s, 1 <= n -> steps h (init n c d) (t1 ++ LStopped :: t2) s ->
  Permutation (accepts t1) (ends t1 ++ drops t1) /\ (forall x, In x t2 -> ~ by_worker x /\ forall id j, x <> LAccept id j).
Proof.
  intros D h n c d t1 t2 s Hn H. split.
  - replace (t1 ++ LStopped :: t2) with ((t1 ++ [LStopped]) ++ t2) in H by (rewrite <- app_assoc; reflexivity). apply steps_split in H as (s1 & H & _).
    destruct (hist_steps h n c d _ _ H) as [I HI]. destruct (h_stop _ _ HI) as [HA HW]; [apply in_app_iff; right; left; reflexivity|].
    pose proof (workers_length h _ _ _ H) as L. cbn in L. rewrite repeat_length in L.
    assert (Q : queue s1 = []). { apply (i_done _ I). destruct (workers s1) as [|w ws]; cbn in L; [lia|]. inversion HW; subst. left. reflexivity. }
    destruct (labs_app t1 [LStopped]) as (L1 & L2 & L3 & L4). cbn in L1, L2, L3, L4. rewrite app_nil_r in L1, L2, L3, L4.
    pose proof (h_all _ _ HI) as P. rewrite Q in P. cbn in P. rewrite app_nil_r, <- (h_acc _ _ HI), L1, L2, L4 in P. rewrite <- P.
    pose proof (h_run _ _ HI) as R. rewrite L2, L3 in R. replace (flat_map ids (workers s1)) with (@nil nat) in R; [rewrite app_nil_r in R; rewrite R; reflexivity|].
    clear - HW. induction HW as [|w ws -> HW IH]; cbn; auto.
  - intros x Hx. apply in_split in Hx as (t3 & t4 & ->).
    replace (t1 ++ LStopped :: t3 ++ x :: t4) with (((t1 ++ LStopped :: t3) ++ [x]) ++ t4) in H by (rewrite <- !app_assoc; reflexivity). apply steps_split in H as (s2 & H & _). apply steps_split in H as (s1 & H & HX).
    destruct (hist_steps h n c d _ _ H) as [I HI]. destruct (h_stop _ _ HI) as [HA HW]; [apply in_app_iff; right; left; reflexivity|].
    pose proof (steps_one _ _ _ _ _ HX) as X2.
    destruct X2 as [X|[X|X]].
    + destruct X; cbn in *; split; auto; try discriminate.
    + exfalso. destruct X; cbn in HW; match goal with H : nth_error _ _ = Some _ |- _ => pose proof (all_done_no _ _ _ HW H) end; discriminate.
    + exfalso. destruct X. cbn in HW. pose proof (all_done_no _ _ _ HW H0). discriminate.
Qed.

(** *** C19 *)
(** While a worker sleeps, for every queued job there is another worker awake that will look at the queue next (no lost wake-up). *)
Theorem C19_no_lost_wakeup : forall D h n c (d : D) t s, steps h (init n c d) t s ->
  In WWait (workers s) -> List.length (queue s) <= count heading (workers s).
Proof. intros D h n c d t s H W. destruct (hist_steps h n c d t s H) as [I _]. apply (i_wait _ I W). Qed.
(** At most one thread has the mutex. *)
Theorem C19_mutual_exclusion : forall D h n c (d : D) t s i j, steps h (init n c d) t s ->
  nth_error (workers s) i = Some WHold -> nth_error (workers s) j = Some WHold -> i = j /\ mutex s <> Some OClient.
Proof.
  intros D h n c d t s i j H H1 H2. destruct (hist_steps h n c d t s H) as [I _]. apply (i_hold _ I) in H1. apply (i_hold _ I) in H2. rewrite H1 in H2 |- *. injection H2 as ->. split; [reflexivity|discriminate].
Qed.
(** Whatever the client does: if nothing can happen any more, except spurious wake-ups, no job is queued or running, and the client has finished
    or waits for count-downs that no job owes it. *)
Theorem C19_no_deadlock : forall D h n c (d : D) t s, 1 <= n -> steps h (init n c d) t s ->
  (forall x s', ~ client_step s x s' /\ ~ worker_step h s x s') ->
  queue s = [] /\ Forall (fun w => w = WWait \/ w = WDone) (workers s) /\ (prog s = CRet \/ exists k, prog s = CWait k /\ 0 < latch s).
Proof.
  intros D h n c d t s Hn H S. destruct (hist_steps h n c d t s H) as [I _]. apply (stuck_state h s I); auto. rewrite (workers_length h _ _ _ H). cbn. rewrite repeat_length. lia.
Qed.
(** A client that uses latches as the library does never gets stuck: it has finished. *)
Theorem C19_client_never_stuck : forall D h n c (d : D) t s, 1 <= n -> disciplined false 0 c -> steps h (init n c d) t s ->
  (forall x s', ~ client_step s x s' /\ ~ worker_step h s x s') -> prog s = CRet.
Proof.
  intros D h n c d t s Hn Hc H S. destruct (C19_no_deadlock D h n c d t s Hn H S) as (Q & W & [P|(k & P & L)]); auto. exfalso.
  assert (PZ : pending s = 0).
  { unfold pending. rewrite Q. cbn [map]. change (list_sum []) with 0. clear - W. induction W as [|w ws [->| ->] W IH]; cbn [map wcds]; rewrite ?sum_cons; cbn [wcds]; auto. }
  destruct (phase_steps h n c d t s Hc H) as [(o & m & A & B & _)|[A _]]; rewrite P in A; inversion A; subst. rewrite PZ in B. lia.
Qed.
(** While the client does nothing, the workers can make only a bounded number of steps, apart from those due to spurious wake-ups. *)
Theorem C19_bounded : forall D h (s : state D), exists b, forall t s', steps h s t s' -> Forall by_worker t -> List.length t <= b + 3 * spurious t.
Proof.
  intros D h s. exists (work s). intros t s' H. enough (X : Forall by_worker t -> List.length t + work s' <= work s + 3 * spurious t) by (intros F; specialize (X F); lia).
  induction H as [|s t s1 x s2 H IH HS]; intros F; [cbn; lia|]. apply Forall_app in F as [F1 F2]. specialize (IH F1). inversion F2 as [|? ? F3 _]; subst. rewrite app_length. unfold spurious in *. rewrite filter_app, app_length. cbn [List.length].
  destruct HS as [HS|[HS|HS]].
  - exfalso. destruct HS; exact F3.
  - pose proof (work_worker h _ _ _ HS). lia.
  - pose proof (work_spurious _ _ _ HS). destruct HS. cbn [filter List.length]. lia.
Qed.
(** After await_stop has told the workers to stop, spurious wake-ups do not count either (nobody sleeps), and when the workers can do nothing more and
    the client does not hold the mutex, they have all returned. *)
Theorem C19_workers_terminate : forall D h n c (d : D) t s, steps h (init n c d) t s -> accepting s = false ->
  (exists b, forall t' s', steps h s t' s' -> Forall by_worker t' -> List.length t' <= b) /\
  (mutex s <> Some OClient -> (forall x s', ~ worker_step h s x s') -> Forall (fun w => w = WDone) (workers s)).
Proof.
  intros D h n c d t s H HA. destruct (hist_steps h n c d t s H) as [I _]. split.
  - destruct (C19_bounded D h s) as [b Hb]. exists b. intros t' s' H' F. specialize (Hb t' s' H' F).
    enough (X : Forall by_worker t' -> spurious t' = 0 /\ accepting s' = false /\ inv s') by (destruct (X F); lia).
    clear Hb F. induction H' as [|s t' s1 x s2 H' IH HS]; [auto|]. intros F. apply Forall_app in F as [F1 F2]. destruct (IH H HA I F1) as (A & B & C). inversion F2 as [|? ? F3 _]; subst. unfold spurious in *. rewrite filter_app, app_length.
    assert (I2 : inv s2) by (eapply inv_step; eauto).
    destruct HS as [HS|[HS|HS]].
    + exfalso. destruct HS; exact F3.
    + destruct (worker_pending h _ _ _ HS) as (_ & E & _). split; [|rewrite E; auto]. rewrite A. destruct HS; reflexivity.
    + exfalso. destruct HS. destruct (i_wait _ C) as [X _]; [cbn; eapply nth_error_In; eauto|]. cbn in *. congruence.
  - intros HM S. destruct s as [q a m l ws cc dd nn jn]. cbn in *. subst a.
    rewrite Forall_forall. intros w Hw. apply In_nth_error in Hw as [i Hi].
    assert (M : m = None). { destruct m as [[|k]|]; auto; [congruence|]. exfalso. pose proof (proj2 (i_hold _ I k) eq_refl) as X. cbn in X. destruct q as [|[id j] q]; [eapply S; eapply w_exit; exact X|eapply S; eapply w_pop; exact X]. }
    subst m. destruct w as [| | |id [|[f|] r] [[] msg]|id msg|]; auto; exfalso.
    + eapply S. eapply w_lock. exact Hi.
    + apply (i_hold _ I) in Hi. discriminate.
    + destruct (i_wait _ I) as [X _]; [cbn; eapply nth_error_In; eauto|]. cbn in X. discriminate.
    + eapply S. eapply w_ok. exact Hi.
    + eapply S. eapply w_failed. exact Hi.
    + destruct (f (true, msg) dd) as (x' & d') eqn:F. eapply S. eapply w_act; eauto.
    + destruct (f (false, msg) dd) as (x' & d') eqn:F. eapply S. eapply w_act; eauto.
    + eapply S. eapply w_count. exact Hi.
    + eapply S. eapply w_count. exact Hi.
    + eapply S. eapply w_handle. exact Hi.
Qed.

(** *** C20 *)
(** Whenever the client gets past latch.wait(), every job accepted so far has done all it does before counting down, in particular its writes. *)
Theorem C20_wait_means_written : forall D h n c (d : D) t s, disciplined false 0 c -> steps h (init n c d) (t ++ [LPass]) s ->
  forall id j, In (LAccept id j) t -> nacts (before j) <= acted id t.
Proof.
  intros D h n c d t s Hc H id j HA. apply steps_split in H as (s1 & H & HX). pose proof (steps_one _ _ _ _ _ HX) as X2. rename s1 into s3.
  destruct (all_steps h n c d t s3 H) as (I & HI & F). pose proof (pushed_cds h n c d t s3 Hc H id j HA) as HC.
  assert (P : pending s3 = 0 /\ drops t = []).
  { destruct (phase_steps h n c d t s3 Hc H) as [(o & m & A & B & C & J & DD)|[A _]]; destruct X2 as [X2|[X2|X2]]; inversion X2; subst; cbn in *; inversion A; subst. cbn in B. split; [lia|auto]. }
  destruct P as [P DD]. unfold pending in P.
  destruct (f_all _ _ F id j HA) as [[Q _]|[(i & r & x & pre & W & E & G)|[(G & _)|G]]].
  - exfalso. assert (cds j = 0); [|lia]. apply (sum_zero (fun e => cds (snd e)) (queue s3) ltac:(lia) (id, j) Q).
  - rewrite G. eapply before_le; eauto. apply (sum_zero wcds (workers s3) ltac:(lia) (WRun id r x)). eapply nth_error_In; eauto.
  - rewrite G. clear. induction j as [|[f|] j IH]; cbn; auto; unfold nacts in *; cbn; lia.
  - rewrite DD in G. destruct G.
Qed.
(** the programs of the library: any sequence of steps on its own data and of batches of jobs that count down once each *)
Theorem C20_batches_are_disciplined : forall D (js : list (job D)) k, Forall (fun j => cds j = 1) js -> disciplined false 0 k -> disciplined false 0 (batch js k).
Proof. intros. apply batch_disciplined; auto. Qed.

(** *** the pool is never empty *)
Theorem C19_pool_size : forall requested hw, (1 <= pool_size requested hw <= Z.max hw 1 /\
  (1 <= requested <= hw -> pool_size requested hw = requested) /\ (1 <= hw <= requested -> pool_size requested hw = hw))%Z.
Proof. intros r hw. unfold pool_size. lia. Qed.

(** *** a run: two workers, two jobs (each adds its number to the list, then counts down), a wait, a stop *)
Definition ex_job (k : nat) : job (list nat) := [Act (fun l d => ((true, ""%string), d ++ [k])); CountDown].
Definition ex_prog : client (list nat) := batch [ex_job 10; ex_job 20] (CStop CRet).
Example pool_hypotheses : disciplined false 0 ex_prog /\
  exists t s, steps (fun _ d => d) (init 2 ex_prog []) t s /\ In LPass t /\ In LStopped t /\ data s = [20; 10] /\ prog s = CRet.
Proof.
  split; [apply batch_disciplined; [repeat constructor|repeat constructor]|].
  destruct (run (fun _ d => d) [W 0; W 0; C 0; C 0; C 0; C 0; C 0; W 0; W 0; W 1; W 1; W 1; W 1; W 1; W 0; W 0; C 0; C 0; C 0; W 0; W 0; W 0; C 0; W 1; W 1; C 0; C 0] [] (init 2 ex_prog [])) as [[t s]|] eqn:R; [|vm_compute in R; discriminate].
  exists t, s. split; [exact (run_from _ _ _ _ _ R)|]. vm_compute in R. injection R as <- <-. cbn. intuition.
Qed.

Print Assumptions C18_exactly_once_in_order.
Print Assumptions C18_stop.
Print Assumptions C19_no_lost_wakeup.
Print Assumptions C19_mutual_exclusion.
Print Assumptions C19_no_deadlock.
Print Assumptions C19_client_never_stuck.
Print Assumptions C19_bounded.
Print Assumptions C19_workers_terminate.
Print Assumptions C20_wait_means_written.
Print Assumptions C20_batches_are_disciplined.
Print Assumptions C19_pool_size.
