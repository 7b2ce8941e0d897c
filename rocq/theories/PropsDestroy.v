(** C45: ZarrStream_destroy leaves no background activity, for all client programs and all interleavings. *)
Require Import ZArith List Bool String Arith Lia Permutation.
Require Import Verif.Base Verif.World Verif.Writer Verif.Stream Verif.Api Verif.Pool Verif.PoolSpec Verif.PoolProofs Verif.PoolRun Verif.Jobs Verif.Destroy Verif.PropsPool Verif.PropsJobs Verif.PropsReport.
Import ListNotations.

Open Scope nat_scope.
Section P.
Context {D : Type} (h : string -> D -> D) (finalized : D -> bool).
(** how far the client is *)
Inductive at_end (t : list (label D)) (s : state D) (gave_up : Prop) : Prop :=
| e_lives : lives finalized (prog s) -> drops t = [] -> at_end t s gave_up
| e_stop : prog s = CStop (CClear (CStop CRet)) -> drops t = [] -> at_end t s gave_up
| e_clear : prog s = CClear (CStop CRet) -> In LStopped t -> drops t = [] -> at_end t s gave_up
| e_stop2 : prog s = CStop CRet -> In LStopped t -> drops t = [] -> at_end t s gave_up
| e_ret : prog s = CRet -> In LStopped t -> drops t = [] -> at_end t s gave_up
| e_gave_up : prog s = CRet -> gave_up -> at_end t s gave_up.
Definition gave_up (s0 s : state D) : Prop :=
  exists t1 s1 t2, steps h s0 t1 s1 /\ prog s1 = destroy_tail finalized /\ finalized (data s1) = false /\ steps h s1 t2 s.
Lemma gave_up_step s0 s x s' : gave_up s0 s -> step h s x s' -> gave_up s0 s'.
Proof. intros (t1 & s1 & t2 & A & B & C & D1) S1. exists t1, s1, (t2 ++ [x]). repeat split; auto. econstructor; eauto. Qed.
Lemma end_step s0 t s x s' : inv s -> hist t s -> 0 < List.length (workers s) -> steps h s0 t s -> at_end t s (gave_up s0 s) -> step h s x s' -> at_end (t ++ [x]) s' (gave_up s0 s').
Proof.
  intros I HI L ST A S1.
  assert (G : gave_up s0 s -> gave_up s0 s') by (intros G; eapply gave_up_step; eauto).
  assert (K : (prog s' = prog s /\ drops (t ++ [x]) = drops t) \/ client_step s x s').
  { destruct S1 as [C|[C|C]]; [right; exact C| |]; left; destruct (labs_app t [x]) as (_ & _ & _ & ->); destruct C; cbn; rewrite app_nil_r; auto. }
  destruct K as [[P Q]|C].
  - destruct A as [A1 A2|A1 A2|A1 A2 A3|A1 A2 A3|A1 A2 A3|A1 A2].
    + apply e_lives; [rewrite P; auto|congruence].
    + apply e_stop; congruence.
    + apply e_clear; [congruence|apply in_app_iff; auto|congruence].
    + apply e_stop2; [congruence|apply in_app_iff; auto|congruence].
    + apply e_ret; [congruence|apply in_app_iff; auto|congruence].
    + apply e_gave_up; [congruence|auto].
  - destruct (labs_app t [x]) as (_ & _ & _ & DX).
    assert (QE : In LStopped t -> queue s = []).
    { intros X. destruct (h_stop _ _ HI X) as [_ W]. apply (i_done _ I). destruct (workers s) as [|w ws]; cbn in L; [lia|]. inversion W; subst. left. reflexivity. }
    destruct A as [A1 A2|A1 A2|A1 A2 A3|A1 A2 A3|A1 A2 A3|A1 A2].
    + destruct C; cbn [prog] in A1; cbn [drops flat_map] in DX.
      * rewrite app_nil_r in DX. inversion A1 as [E1|f' k' Hk E1| | |]; subst.
        -- destruct (finalized d) eqn:F.
           ++ apply e_stop; [cbn; rewrite ?F; reflexivity|congruence].
           ++ apply e_gave_up; [cbn; rewrite ?F; reflexivity|]. exists t, (mkstate q a m l ws (destroy_tail finalized) d n jn), [LTau]. split; auto. split; [reflexivity|]. split; [exact F|]. change [LTau] with ([] ++ [@LTau D]). econstructor; [constructor|exact S1].
        -- apply e_lives; [apply Hk|congruence].
      * rewrite app_nil_r in DX. inversion A1; subst. apply e_lives; [auto|congruence].
      * rewrite app_nil_r in DX. inversion A1; subst. apply e_lives; [auto|congruence].
      * rewrite app_nil_r in DX. apply e_lives; [auto|congruence].
      * rewrite app_nil_r in DX. inversion A1; subst. apply e_lives; [cbn; auto|congruence].
      * rewrite app_nil_r in DX. inversion A1; subst. apply e_lives; [cbn; auto|congruence].
      * inversion A1.
      * inversion A1.
      * inversion A1.
      * inversion A1.
    + destruct C; cbn in A1; try discriminate; cbn [drops flat_map] in DX; rewrite app_nil_r in DX; try subst c; try (injection A1 as ->).
      * apply e_stop; [reflexivity|congruence].
      * apply e_stop; [reflexivity|congruence].
      * apply e_stop; [reflexivity|congruence].
      * apply e_clear; [reflexivity|apply in_app_iff; right; left; reflexivity|congruence].
    + destruct C; cbn in A1; try discriminate; try subst c; try (injection A1 as ->).
      * apply e_clear; [reflexivity|apply in_app_iff; auto|rewrite DX, A3; reflexivity].
      * cbn in QE. apply e_stop2; [reflexivity|apply in_app_iff; auto|rewrite DX, A3; rewrite (QE A2); reflexivity].
    + destruct C; cbn in A1; try discriminate; try subst c; try (injection A1 as ->);
        first [solve [apply e_stop2; [reflexivity|apply in_app_iff; auto|rewrite DX, A3; reflexivity]]|apply e_ret; [reflexivity|apply in_app_iff; auto|rewrite DX, A3; reflexivity]].
    + destruct C; cbn in A1; try discriminate. subst c. discriminate.
    + destruct C; cbn in A1; try discriminate. subst c. discriminate.
Qed.
Lemma end_steps n c d t s : 1 <= n -> lives finalized c -> steps h (init n c d) t s -> at_end t s (gave_up (init n c d) s).
Proof.
  intros Hn Hc H. remember (init n c d) as s0 eqn:E0. induction H as [s|s t s' x s'' H IH HS]; [subst; apply e_lives; auto|].
  subst s. destruct (hist_steps h n c d _ _ H) as [I HI]. eapply end_step; eauto. rewrite (workers_length h _ _ _ H). cbn. rewrite repeat_length. lia.
Qed.
End P.

(** When ZarrStream_destroy has returned: either finalize_stream had reported that not everything could be finalized (and destroy gave up); or
    every job ever accepted has been finished exactly once, none was dropped, the queue is empty, all worker threads have exited, and nothing
    will ever happen on the pool again. *)
Theorem C45_no_background_activity : forall D h finalized n c (d : D) t s, 1 <= n -> lives finalized c ->
  steps h (init n c d) t s -> prog s = CRet ->
  (exists t1 s1 t2, steps h (init n c d) t1 s1 /\ prog s1 = destroy_tail finalized /\ finalized (data s1) = false /\ steps h s1 t2 s) \/
  (Permutation (accepts t) (ends t) /\ drops t = [] /\ queue s = [] /\ Forall (fun w => w = WDone) (workers s) /\
   forall x s', ~ step h s x s').
Proof.
  intros D h fin n c d t s Hn Hc H R. destruct (end_steps h fin n c d t s Hn Hc H) as [A1 A2|A1 A2|A1 A2 A3|A1 A2 A3|A1 A2 A3|A1 A2]; try congruence.
  - rewrite R in A1. inversion A1.
  - right. destruct (hist_steps h n c d _ _ H) as [I HI]. destruct (h_stop _ _ HI A2) as [HA HW].
    pose proof (workers_length h _ _ _ H) as L. cbn in L. rewrite repeat_length in L.
    assert (Q : queue s = []). { apply (i_done _ I). destruct (workers s) as [|w ws]; cbn in L; [lia|]. inversion HW; subst. left. reflexivity. }
    split.
    { pose proof (h_all _ _ HI) as P. rewrite Q, A3 in P. cbn in P. rewrite app_nil_r, <- (h_acc _ _ HI) in P. rewrite <- P.
      pose proof (h_run _ _ HI) as X. replace (flat_map ids (workers s)) with (@nil nat) in X; [rewrite app_nil_r in X; rewrite X; reflexivity|].
      clear - HW. induction HW as [|w ws -> HW IH]; cbn; auto. }
    split; [exact A3|]. split; [exact Q|]. split; [exact HW|]. intros x s' [C|[C|C]].
    + destruct C; cbn in R; try discriminate. subst c0. discriminate.
    + destruct C; cbn in HW; match goal with X : nth_error _ _ = Some _ |- _ => pose proof (all_done_no _ _ _ HW X) end; discriminate.
    + destruct C. cbn in HW. pose proof (all_done_no _ _ _ HW H0). discriminate.
  - left. exact A2.
Qed.
(** Destroy does return: at no point can the client, the workers and the error handler all be stuck before it has (with C19_bounded: workers
    alone cannot go on for ever). *)
Theorem C45_destroy_returns : forall D h finalized n (d : D) c t s, 1 <= n -> lives finalized c -> disciplined false 0 c ->
  steps h (init n c d) t s -> (forall x s', ~ client_step s x s' /\ ~ worker_step h s x s') -> prog s = CRet.
Proof.
  intros D h fin n d c t s Hn _ Hd H ST. exact (C19_client_never_stuck D h n c d t s Hn Hd H ST).
Qed.

(** ZarrStream_destroy of a stream as a whole, on n workers, under every schedule: when it has returned, the stream and the world are what
    [api_destroy] of the sequential model says. If that says true, all workers have exited and nothing can happen any more; if it says anything
    else, the pool still accepts jobs and no worker has exited. *)
Section Whole.
Variables (E : env) (h : string -> TW * bool -> TW * bool) (n : nat) (tw : TW).
Let d1 : TW * bool := (fst (api_destroy E tw), result (snd (api_destroy E tw))).
Definition good (acc : bool) (w : worker (TW * bool)) : Prop := match w with WLock | WHold | WWait => True | WDone => acc = false | _ => False end.
Definition destroying (s : state (TW * bool)) : Prop :=
  queue s = [] /\ Forall (good (accepting s)) (workers s) /\
  (prog s = destroy_stream E /\ data s = (tw, false) /\ accepting s = true \/
   data s = d1 /\ (prog s = destroy_tail snd /\ accepting s = true \/
     snd d1 = true /\ In (prog s) [CStop (CClear (CStop CRet)); CClear (CStop CRet); CStop CRet; CRet] \/
     snd d1 = false /\ prog s = CRet /\ accepting s = true)).
Lemma good_put ws i o w acc : nth_error ws i = Some o -> good acc w -> Forall (good acc) ws -> Forall (good acc) (put ws i w).
Proof. intros N H F. apply Forall_forall. intros x X. destruct (in_put _ _ _ _ _ N X) as [->|Y]; auto. exact (proj1 (Forall_forall _ _) F x Y). Qed.
Lemma destroying_step s x s' : destroying s -> step h s x s' -> destroying s'.
Proof.
  intros (Q & W & P) [C|[C|C]].
  - destruct C; cbn [queue workers accepting prog data] in *.
    + destruct P as [(P1 & P2 & P3)|(P1 & [[P2 P3]|[[P2 P3]|(P2 & P3 & P4)]])]; try discriminate.
      * injection P1 as -> ->. subst d. split; [exact Q|]. split; [exact W|]. right. cbn [data prog accepting fst]. split; [unfold d1, api_destroy; destruct (finalize_stream E tw); reflexivity|left; split; [reflexivity|exact P3]].
      * injection P2 as -> ->. subst d. split; [exact Q|]. split; [exact W|]. right. cbn [data prog accepting]. split; [reflexivity|right]. destruct (snd d1) eqn:S1; [left; split; [reflexivity|left; reflexivity]|right; auto].
      * cbn in P3. decompose [or] P3; try discriminate; contradiction.
    + destruct P as [(P1 & P2 & P3)|(P1 & [[P2 P3]|[[P2 P3]|(P2 & P3 & P4)]])]; try discriminate. cbn in P3. decompose [or] P3; try discriminate; contradiction.
    + destruct P as [(P1 & P2 & P3)|(P1 & [[P2 P3]|[[P2 P3]|(P2 & P3 & P4)]])]; try discriminate. cbn in P3. decompose [or] P3; try discriminate; contradiction.
    + split; [exact Q|]. split; [exact W|]. exact P.
    + destruct P as [(P1 & P2 & P3)|(P1 & [[P2 P3]|[[P2 P3]|(P2 & P3 & P4)]])]; try discriminate. cbn in P3. decompose [or] P3; try discriminate; contradiction.
    + destruct P as [(P1 & P2 & P3)|(P1 & [[P2 P3]|[[P2 P3]|(P2 & P3 & P4)]])]; try discriminate. cbn in P3. decompose [or] P3; try discriminate; contradiction.
    + destruct P as [(P1 & P2 & P3)|(P1 & [[P2 P3]|[[P2 P3]|(P2 & P3 & P4)]])]; try discriminate.
      split; [exact Q|]. split; [|right; cbn [data prog accepting]; split; [exact P1|right; left; split; [exact P2|exact P3]]].
      cbn [accepting workers]. unfold notify_all. apply Forall_map. eapply Forall_impl; [|exact W]. intros [| | | | |]; cbn; auto.
    + destruct P as [(P1 & P2 & P3)|(P1 & [[P2 P3]|[[P2 P3]|(P2 & P3 & P4)]])]; try discriminate.
      split; [exact Q|]. split; [exact W|]. right. split; [exact P1|]. right; left; split; [exact P2|exact P3].
    + destruct P as [(P1 & P2 & P3)|(P1 & [[P2 P3]|[[P2 P3]|(P2 & P3 & P4)]])]; try discriminate.
      split; [exact Q|]. split; [exact W|]. right. split; [exact P1|]. right; left. split; [exact P2|]. cbn [prog]. cbn in P3.
      decompose [or] P3; try contradiction; match goal with X : _ = CStop _ |- _ => try discriminate X; injection X as <- end; cbn; tauto.
    + destruct P as [(P1 & P2 & P3)|(P1 & [[P2 P3]|[[P2 P3]|(P2 & P3 & P4)]])]; try discriminate.
      split; [reflexivity|]. split; [exact W|]. right. split; [exact P1|]. right; left. split; [exact P2|]. cbn [prog]. cbn in P3.
      decompose [or] P3; try contradiction; match goal with X : _ = CClear _ |- _ => try discriminate X; injection X as <- end; cbn; tauto.
  - destruct C; cbn [queue workers accepting prog data] in *; try discriminate Q;
      try (exfalso; match goal with N : nth_error _ _ = Some _ |- _ => exact (proj1 (Forall_forall _ _) W _ (nth_error_In _ _ N)) end);
      (split; [reflexivity || exact Q|]; split; [|exact P]; eapply good_put; eauto; cbn; auto).
  - destruct C. cbn [queue workers accepting prog data] in *. split; [exact Q|]. split; [|exact P]. eapply good_put; eauto. cbn. auto.
Qed.
Lemma destroying_steps t s : steps h (init n (destroy_stream E) (tw, false)) t s -> destroying s.
Proof.
  intros H. remember (init n (destroy_stream E) (tw, false)) as s0 eqn:E0. induction H as [s|s t s' x s'' H IH HS]; [|subst; eapply destroying_step; eauto]. subst. split; [reflexivity|]. split.
  - cbn. apply Forall_forall. intros w I. apply repeat_spec in I. subst. exact I.
  - left. repeat split.
Qed.
End Whole.
Theorem C45_destroy : forall E h n tw t s, 1 <= n -> steps h (init n (destroy_stream E) (tw, false)) t s -> prog s = CRet ->
  fst (data s) = fst (api_destroy E tw) /\
  (snd (api_destroy E tw) = Ok true -> queue s = [] /\ Forall (fun w => w = WDone) (workers s) /\ forall x s', ~ step h s x s') /\
  (snd (api_destroy E tw) <> Ok true -> accepting s = true /\ ~ In WDone (workers s)).
Proof.
  intros E h n tw t s Hn H R. pose proof (destroying_steps E h n tw t s H) as (Q & W & P). rewrite R in P.
  destruct P as [(P1 & _)|(P1 & P)]; [discriminate|]. split; [rewrite P1; reflexivity|]. split.
  - intros O. destruct (C45_no_background_activity _ h snd n (destroy_stream E) (tw, false) t s Hn) as [(t1 & s1 & t2 & A1 & A2 & A3 & _)|(A1 & A2 & A3 & A4 & A5)]; auto.
    { unfold destroy_stream. apply l_do. intros d. apply l_end. }
    exfalso. destruct (destroying_steps E h n tw t1 s1 A1) as (_ & _ & [(B1 & _)|(B1 & _)]).
    + rewrite A2 in B1. unfold destroy_tail, destroy_stream in B1. injection B1 as _ B. apply (f_equal (fun k => k (tw, false))) in B. cbn in B. discriminate.
    + rewrite B1 in A3. cbn [snd] in A3. rewrite O in A3. discriminate.
  - intros O. assert (X : result (snd (api_destroy E tw)) = false) by (destruct (snd (api_destroy E tw)) as [[]| | |]; cbn; congruence).
    destruct P as [[P2 _]|[[P2 _]|(P2 & _ & P4)]]; try discriminate; cbn [snd] in P2; try congruence. split; [exact P4|]. intros I. pose proof (proj1 (Forall_forall _ _) W _ I) as G. cbn in G. congruence.
Qed.

(** finalize_stream returns true only after every metadata sink and every writer has been finalized and taken out of the stream. *)
Theorem C45_everything_finalized : forall E s w s' w', finalize_stream E (s, w) = ((s', w'), Ok true) -> s_msinks s' = [] /\ s_writers s' = [].
Proof.
  intros E s w s' w' H. unfold finalize_stream, bind, getT, modT, ret in H.
  destruct (write_group_metadata E (s, w)) as [[s1 w1] [[]| | |]] eqn:H1; try discriminate. cbn [fst] in H.
  destruct (all_ok (finalize_msink E) (seq 0 (List.length (s_msinks s1))) (s1, w1)) as [[s2 w2] [[]| | |]] eqn:H2; try discriminate. cbn [fst snd] in H.
  destruct (all_ok (fun i => on_writer i (finalize_array E)) (seq 0 (List.length (s_writers (set_msinks s2 [])))) (set_msinks s2 [], w2)) as [[s3 w3] [[]| | |]] eqn:H3; try discriminate.
  cbn [fst snd] in H. injection H as <- <-. split; [|reflexivity]. cbn [set_writers s_msinks].
  enough (X : forall l tw tw' r, all_ok (fun i => on_writer i (finalize_array E)) l tw = (tw', r) -> s_msinks (fst tw') = s_msinks (fst tw)) by (apply X in H3; exact H3).
  clear. induction l as [|i l IH]; intros tw tw' r H; cbn [all_ok] in H; [unfold ret in H; injection H as <- <-; reflexivity|].
  unfold bind in H. destruct (on_writer i (finalize_array E) tw) as [tw1 o] eqn:O.
  assert (K : s_msinks (fst tw1) = s_msinks (fst tw)).
  { unfold on_writer in O. destruct tw as [s w]. destruct (nth_error (s_writers s) i) as [a|] eqn:N; [|injection O as <- <-; reflexivity].
    destruct (finalize_array E (a, w)) as [[a' w'] o']. injection O as <- <-. reflexivity. }
  destruct o as [[]| | |]; try (injection H as <- <-; exact K). rewrite <- K. eapply IH; eauto. 
Qed.

(** The rest of the property is false: when finalize_stream fails, destroy returns and the worker threads go on waiting for jobs; nothing can stop
    them any more, the stream is leaked. Here a request to S3 fails during destroy. *)
Theorem C45_failed_finalize_refuted : exists E st calls w w1 s1 w2 s2 rs tw,
  api_create E (Some st) w = (w1, Ok (Some s1)) /\ api_appends E calls (s1, w1) = ((s2, w2), Ok rs) /\ Forall (fun r => fst r = st_success) rs /\
  api_destroy E (s2, w2) = (tw, Ok false) /\
  exists t s, steps (fun m d => d) (init 1 (destroy_stream E) ((s2, w2), false)) t s /\ prog s = CRet /\ accepting s = true /\ workers s = [WWait].
Proof.
  pose (E := rx_env 9). exists E, (Examples.ex_s3_settings 2), (repeat (zrep 1%Z 70%Z) 5), Examples.ex_world.
  destruct (api_create E (Some (Examples.ex_s3_settings 2)) Examples.ex_world) as [w1 [[s1|]| | |]] eqn:H1; try (vm_compute in H1; discriminate).
  destruct (api_appends E (repeat (zrep 1%Z 70%Z) 5) (s1, w1)) as [[s2 w2] r] eqn:H2.
  assert (X : r = Ok (repeat (st_success, Some 70%Z) 5) /\ exists tw, api_destroy E (s2, w2) = (tw, Ok false)).
  { vm_compute in H1. injection H1 as <- <-. vm_compute in H2. injection H2 as <- <- <-. split; [reflexivity|]. eexists. vm_compute. reflexivity. }
  destruct X as [-> [tw H3]].
  exists w1, s1, w2, s2, (repeat (st_success, Some 70%Z) 5), tw. split; [reflexivity|]. split; [exact H2|]. split; [repeat constructor|]. split; [exact H3|].
  assert (F : finalize_stream E (s2, w2) = (tw, Ok false)) by exact H3.
  pose (f := fun d : TW * bool => let '(tw, r) := finalize_stream E (fst d) in (tw, result r)).
  assert (FD : f ((s2, w2), false) = (tw, false)) by (unfold f; cbn [fst]; rewrite F; reflexivity).
  exists ((((([] ++ [LTau]) ++ [LTau]) ++ [LWorker 0])) ++ [LWorker 0]), (mkstate [] true None 0 [WWait] CRet (tw, false) 0 None).
  split; [|repeat split].
  eapply steps_snoc; [|right; left; exact (w_wait _ _ (Some (OWorker 0)) 0 [WHold] CRet (tw, false) 0 None 0 eq_refl)].
  eapply steps_snoc; [|right; left; exact (w_lock _ _ [] true 0 [WLock] CRet (tw, false) 0 None 0 eq_refl)].
  eapply steps_snoc; [|left; exact (s_do _ [] true None 0 [WLock] (tw, false) 0 None (fun d => d) (fun d : TW * bool => if snd d then CStop (CClear (CStop CRet)) else CRet))].
  eapply steps_snoc; [constructor|]. left. unfold destroy_stream, init. cbn [repeat].
  change (fun d : TW * bool => let '(tw, r) := finalize_stream E (fst d) in (tw, result r)) with f. rewrite <- FD. exact (s_do _ [] true None 0 [WLock] ((s2, w2), false) 0 None f (fun _ => destroy_tail snd)).
Qed.
(** The hypotheses of C45_no_background_activity can be met, by a client that runs a batch of jobs and destroys: a complete run with two workers
    and two jobs, at the end of which finalization had succeeded. *)
Definition dx_job : job nat := [Act (fun l d => (l, S d)); CountDown].
Definition dx_fin (d : nat) : bool := Nat.eqb d 2.
Definition dx_client : client nat := CLatch 2 (CPush dx_job (fun _ => CPush dx_job (fun _ => CWait (destroy_tail dx_fin)))).
Example C45_hypotheses : lives dx_fin dx_client /\ disciplined false 0 dx_client /\
  exists t s, steps (fun _ d => d) (init 2 dx_client 0) t s /\ prog s = CRet /\ accepts t = [0; 1] /\ data s = 2.
Proof.
  split; [repeat constructor|]. split.
  { constructor. change 2 with (cds dx_job + (cds dx_job + 0)). constructor; [cbn; lia|]. constructor; [cbn; lia|]. constructor. constructor. intros d. cbv beta. destruct (dx_fin d); repeat constructor. }
  destruct (run_check (fun _ d => d) [C 0; C 0; C 0; C 0; C 0; W 0; W 0; W 1; W 1; W 0; W 0; W 0; W 1; W 1; W 1; C 0; C 0; C 0; C 0; W 0; W 0; W 1; W 1; C 0; C 0; C 0; C 0; C 0; C 0; C 0; C 0; C 0; C 0] (init 2 dx_client 0)
    (fun t s => match prog s with CRet => (Nat.eqb (data s) 2 && match accepts t with [0; 1] => true | _ => false end)%bool | _ => false end)) as (t & s & R & O); [vm_compute; reflexivity|].
  exists t, s. split; [exact R|]. destruct (prog s); try discriminate. apply andb_prop in O as [O1 O2]. apply Nat.eqb_eq in O1. split; [reflexivity|]. split; [|exact O1].
  destruct (accepts t) as [|[|] [|[|[|]] [|]]]; try discriminate. reflexivity.
Qed.
(** C45_destroy: a stream that is created and destroyed, on one worker, up to the end *)
Example C45_destroy_hypotheses : exists s1 w1 t s, api_create (rx_env 1000) (Some (fx_set 2 None)) Examples.ex_world = (w1, Ok (Some s1)) /\
  steps (fun _ d => d) (init 1 (destroy_stream (rx_env 1000)) ((s1, w1), false)) t s /\ prog s = CRet /\ snd (api_destroy (rx_env 1000) (s1, w1)) = Ok true.
Proof.
  destruct (api_create (rx_env 1000) (Some (fx_set 2 None)) Examples.ex_world) as [w1 [[s1|]| | |]] eqn:H1; try (vm_compute in H1; discriminate).
  exists s1, w1. vm_compute in H1. injection H1 as <- <-.
  match goal with |- context [init 1 (destroy_stream ?EE) ?dd] => destruct (run_check (fun _ d => d) [C 0; C 0; C 0; C 0; W 0; W 0; C 0; C 0; C 0; C 0; C 0; C 0; C 0; C 0] (init 1 (destroy_stream EE) dd)
    (fun t s => match prog s with CRet => true | _ => false end)) as (t & s & R & O); [vm_compute; reflexivity|] end.
  exists t, s. split; [reflexivity|]. split; [exact R|]. split; [destruct (prog s); try discriminate; reflexivity|]. vm_compute. reflexivity.
Qed.

Print Assumptions C45_no_background_activity.
Print Assumptions C45_destroy_returns.
Print Assumptions C45_everything_finalized.
Print Assumptions C45_failed_finalize_refuted.
Print Assumptions C45_destroy.
