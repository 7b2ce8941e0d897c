(** Schedules: computing runs of the pool. *)
Require Import List Bool String Arith Lia.
Require Import Verif.Pool Verif.PoolSpec Verif.PoolProofs.
Import ListNotations.

Section R.
Context {D : Type} (h : string -> D -> D).
(** who goes next: the client (waking worker k when it pushes a job), or worker i *)
Inductive choice : Type := C (wake : nat) | W (i : nat).
Definition has_waiting (ws : list (worker D)) : bool := existsb waiting ws.
Definition client_go (k : nat) (s : state D) : option (label D * state D) :=
  let '(mkstate q a m l ws c d n jn) := s in
  match c with
  | CRet => None
  | CDo f k => Some (LTau, mkstate q a m l ws (k d) (f d) n jn)
  | CLatch l' k => Some (LTau, mkstate q a m l' ws k d n jn)
  | CWait k => match l with O => Some (LPass, mkstate q a m 0 ws k d n jn) | _ => None end
  | CPush j kk =>
      match m, jn, a with
      | None, None, _ => Some (LTau, mkstate q a (Some OClient) l ws c d n None)
      | Some OClient, _, true =>
          match nth_error ws k with
          | Some WWait => Some (LAccept n j, mkstate (q ++ [(n, j)]) true None l (put ws k WLock) (kk true) d (S n) jn)
          | _ => if has_waiting ws then None else Some (LAccept n j, mkstate (q ++ [(n, j)]) true None l ws (kk true) d (S n) jn)
          end
      | Some OClient, _, false => Some (LReject, mkstate q false None l ws (kk false) d n jn)
      | _, _, _ => None
      end
  | CStop kk =>
      match jn with
      | None => match m with
                | None => Some (LTau, mkstate q a (Some OClient) l ws c d n None)
                | Some OClient => Some (LTau, mkstate q false None l (notify_all ws) c d n (Some 0))
                | _ => None
                end
      | Some i => match nth_error ws i with
                  | None => Some (LStopped, mkstate q a m l ws kk d n None)
                  | Some WDone => Some (LTau, mkstate q a m l ws c d n (Some (S i)))
                  | _ => None
                  end
      end
  | CClear kk =>
      match m, jn with
      | None, None => Some (LTau, mkstate q a (Some OClient) l ws c d n None)
      | Some OClient, _ => Some (LDrop (map fst q), mkstate [] a None l ws kk d n jn)
      | _, _ => None
      end
  end.
Definition worker_go (i : nat) (s : state D) : option (label D * state D) :=
  let '(mkstate q a m l ws c d n jn) := s in
  match nth_error ws i with
  | Some WLock => match m with None => Some (LWorker i, mkstate q a (Some (OWorker i)) l (put ws i WHold) c d n jn) | _ => None end
  | Some WHold => match q, a with
                  | [], true => Some (LWorker i, mkstate [] true None l (put ws i WWait) c d n jn)
                  | [], false => Some (LWorker i, mkstate [] false None l (put ws i WDone) c d n jn)
                  | (id, j) :: q', _ => Some (LStart id i, mkstate q' a None l (put ws i (WRun id j (true, ""%string))) c d n jn)
                  end
  | Some (WRun id (Act f :: r) x) => let '(x', d') := f x d in Some (LAct id, mkstate q a m l (put ws i (WRun id r x')) c d' n jn)
  | Some (WRun id (CountDown :: r) x) => Some (LWorker i, mkstate q a m (pred l) (put ws i (WRun id r x)) c d n jn)
  | Some (WRun id [] (true, msg)) => Some (LEnd id i, mkstate q a m l (put ws i WLock) c d n jn)
  | Some (WRun id [] (false, msg)) => Some (LWorker i, mkstate q a m l (put ws i (WHandle id msg)) c d n jn)
  | Some (WHandle id msg) => Some (LEnd id i, mkstate q a m l (put ws i WLock) c (h msg d) n jn)
  | Some WWait => Some (LSpurious i, mkstate q a m l (put ws i WLock) c d n jn)
  | _ => None
  end.
Definition go (ch : choice) (s : state D) : option (label D * state D) := match ch with C k => client_go k s | W i => worker_go i s end.
Lemma go_step ch s x s' : go ch s = Some (x, s') -> step h s x s'.
Proof.
  destruct s as [q a m l ws c d n jn]. destruct ch as [k|i]; cbn [go].
  - destruct c as [|f kk|j kk|l' kk|kk|kk|kk]; cbn [client_go].
    + discriminate.
    + intros H. injection H as <- <-. left. constructor.
    + destruct m as [[|i]|]; [destruct a| |].
      * destruct (nth_error ws k) as [w|] eqn:E; [destruct w|]; try (destruct (has_waiting ws) eqn:N; [discriminate|]); intros H; injection H as <- <-; left; apply s_push;
          first [exact (n_one D ws k E)|apply n_none; intros X; apply Bool.not_true_iff_false in N; apply N; apply existsb_exists; exists WWait; auto].
      * intros H. injection H as <- <-. left. constructor.
      * discriminate.
      * destruct jn; [discriminate|]. intros H. injection H as <- <-. left. constructor. reflexivity.
    + intros H. injection H as <- <-. left. constructor.
    + destruct l; [|discriminate]. intros H. injection H as <- <-. left. constructor.
    + destruct jn as [i|].
      * destruct (nth_error ws i) as [[]|] eqn:E; try discriminate; intros H; injection H as <- <-; left; constructor; auto.
      * destruct m as [[|i]|]; try discriminate; intros H; injection H as <- <-; left; constructor; reflexivity.
    + destruct m as [[|i]|]; [|discriminate|destruct jn; [discriminate|]]; intros H; injection H as <- <-; left; constructor; reflexivity.
  - unfold worker_go. destruct (nth_error ws i) as [[| | |id [|[f|] r] [[] msg]|id msg|]|] eqn:E; try discriminate.
    + destruct m; [discriminate|]. intros H. injection H as <- <-. right. left. constructor. exact E.
    + destruct q as [|[id j] q]; [destruct a|]; intros H; injection H as <- <-; right; left; constructor; exact E.
    + intros H. injection H as <- <-. right. right. constructor. exact E.
    + intros H. injection H as <- <-. right. left. econstructor. exact E.
    + intros H. injection H as <- <-. right. left. econstructor. exact E.
    + destruct (f (true, msg) d) as (x' & d') eqn:F. intros H. injection H as <- <-. right. left. econstructor; eauto.
    + destruct (f (false, msg) d) as (x' & d') eqn:F. intros H. injection H as <- <-. right. left. econstructor; eauto.
    + intros H. injection H as <- <-. right. left. econstructor. exact E.
    + intros H. injection H as <- <-. right. left. econstructor. exact E.
    + intros H. injection H as <- <-. right. left. econstructor. exact E.
Qed.
Fixpoint run (l : list choice) (t : list (label D)) (s : state D) : option (list (label D) * state D) :=
  match l with [] => Some (t, s) | ch :: l' => match go ch s with Some (x, s') => run l' (t ++ [x]) s' | None => None end end.
Lemma run_steps s0 l : forall t s t' s', run l t s = Some (t', s') -> steps h s0 t s -> steps h s0 t' s'.
Proof.
  induction l as [|ch l IH]; intros t s t' s' H P; cbn in H; [injection H as <- <-; exact P|]. destruct (go ch s) as [[x s1]|] eqn:G; [|discriminate]. eapply IH; eauto. econstructor; eauto. eapply go_step; eauto.
Qed.
Lemma run_from s0 l t s : run l [] s0 = Some (t, s) -> steps h s0 t s.
Proof. intros H. eapply run_steps; eauto. constructor. Qed.
End R.

(** a run found by computation: only the observation has to be computed *)
Lemma run_check {D} (h : string -> D -> D) sched s0 (P : list (label D) -> state D -> bool) :
  (match run h sched [] s0 with Some (t, s) => P t s | None => false end) = true -> exists t s, steps h s0 t s /\ P t s = true.
Proof. intros H. destruct (run h sched [] s0) as [[t s]|] eqn:R; [|discriminate]. exists t, s. split; auto. exact (run_from _ _ _ _ _ R). Qed.
