(** C46: what make_dirs_ does to the recorded error, on every schedule and for every pattern of failing requests. *)
Require Import ZArith List Bool String Lia.
Require Import Verif.Base Verif.World Verif.Pool Verif.PoolSpec Verif.PoolProofs Verif.PoolRun Verif.PoolBatch Verif.Jobs Verif.PropsJobs.
Require Import Verif.Dim Verif.Writer.
Require Verif.Stream Verif.Api Verif.SessionSpec Verif.AnswerSpec Verif.ExamplesUse.
Import ListNotations.
Open Scope string_scope. Open Scope list_scope. Open Scope Z_scope.

Definition clear_flag : action mk := Act (fun l d => (l, mkmk (m_world d) (m_all d && fst l) (m_sinks d) (m_out d))).
Definition err_of (d : mk) : string := w_err (m_world d).
Section Dirs.
Variable E : env.
(** programs of the client that make directories and do not touch the recorded error or the flag *)
Inductive dirs_only : client mk -> Prop :=
| do_do f k : (forall d, err_of (f d) = err_of d /\ m_all (f d) = m_all d) -> (forall d, dirs_only (k d)) -> dirs_only (CDo f k)
| do_push p k : (forall b, dirs_only (k b)) -> dirs_only (CPush (dir_pool_job E p) k)
| do_latch n k : dirs_only k -> dirs_only (CLatch n k)
| do_wait k : dirs_only k -> dirs_only (CWait k)
| do_ret : dirs_only CRet.
Definition speaks (x : local) : Prop := fst x = false -> snd x <> "".
Definition d_rest (r : job mk) (x : local) : Prop :=
  (exists p, r = dir_pool_job E p) \/ (r = [CountDown; clear_flag] \/ r = [clear_flag] \/ r = []) /\ speaks x.
Definition d_worker (w : worker mk) : Prop := match w with WRun _ r x => d_rest r x | WHandle _ m => m <> "" | _ => True end.
Definition failing_worker (w : worker mk) : Prop := match w with WRun _ [] x => fst x = false | WHandle _ _ => True | _ => False end.
Record dinv (s : state mk) : Prop := mkdinv {
  di_prog : dirs_only (prog s);
  di_queue : forall id j, In (id, j) (queue s) -> exists p, j = dir_pool_job E p;
  di_workers : forall w, In w (workers s) -> d_worker w;
  di_flag : m_all (data s) = false -> err_of (data s) <> "" \/ exists w, In w (workers s) /\ failing_worker w }.
Lemma in_put_other {A} (l : list A) i o x y : nth_error l i = Some o -> In y l -> y <> o -> In y (put l i x).
Proof. intros N H D. destruct (put_split l i o N) as (l1 & l2 & -> & _ & P). rewrite P. apply in_app_iff in H as [H|[H|H]]; [apply in_app_iff; auto|congruence|apply in_app_iff; right; right; auto]. Qed.
Lemma in_put_new {A} (l : list A) i o x : nth_error l i = Some o -> In x (put l i x).
Proof. intros N. destruct (put_split l i o N) as (l1 & l2 & -> & _ & P). rewrite P. apply in_app_iff. right; left; reflexivity. Qed.
Lemma keep_failing (ws : list (worker mk)) i o x : nth_error ws i = Some o -> ~ failing_worker o \/ failing_worker x ->
  (exists w, In w ws /\ failing_worker w) -> exists w, In w (put ws i x) /\ failing_worker w.
Proof.
  intros N [H|H] (w & A & B); [|exists x; split; [eapply in_put_new; eauto|exact H]]. exists w. split; auto. eapply in_put_other; eauto. intros ->. auto.
Qed.
Lemma dir_body_err p all w : forall w' r, dir_body E p all w = (w', r) -> w_err w' = w_err w /\ speaks (local_of r).
Proof.
  intros w' r. unfold dir_body, speaks. destruct (String.eqb p ""); [intros H; injection H as <- <-; split; [auto|discriminate]|].
  unfold bind at 1, in_task at 1, fs_is_directory. destruct (e_stat E (w_tick w) p) eqn:ST; [|intros H; injection H as <- <-; split; [auto|discriminate]].
  destruct (dir_of E (w_trace w) p) eqn:DP; [intros H; injection H as <- <-; split; [auto|discriminate]|].
  unfold bind at 1, in_task at 1, fs_exists. rewrite ST. match goal with |- context [if ?b then _ else _] => destruct b end; [intros H; injection H as <- <-; split; [auto|discriminate]|].
  destruct all; [|intros H; injection H as <- <-; split; [auto|discriminate]].
  unfold bind at 1, fs_create_directories. unfold bind at 1, getM. cbv beta iota. rewrite DP. destruct (String.eqb p ""); cbn [orb].
  { intros H. cbn in H. injection H as <- <-. split; [auto|discriminate]. }
  unfold bind, next_tick. destruct (e_fault E (w_tick w)); cbn; intros H; injection H as <- <-; cbn; split; auto; discriminate.
Qed.
Lemma dinv_put s i o y : dinv s -> nth_error (workers s) i = Some o -> d_worker y -> forall w, In w (put (workers s) i y) -> d_worker w.
Proof. intros H N Y w X. destruct (in_put _ _ _ _ _ N X) as [->|Z]; auto. apply (di_workers s H); auto. Qed.
Lemma dinv_step s x s' : dinv s -> step mk_error s x s' -> dinv s' /\ (err_of (data s) <> "" -> err_of (data s') <> "").
Proof.
  intros T [H|[H|H]].
  - destruct T as [T1 T2 T3 T4]. destruct H; cbn in *; inversion T1; subst; try discriminate; try (split; [constructor; cbn; auto|auto]; fail).
    + match goal with X : forall d, err_of (f d) = _ /\ _ |- _ => destruct (X d) as [X1 X2] end. split; [constructor; cbn; auto|rewrite X1; auto]. rewrite X1, X2. exact T4.
    + split; [|auto]. destruct (notify_cases _ _ H) as [(i & N & ->)|[N ->]]; constructor; cbn; auto.
      * intros id j' X. apply in_app_iff in X as [X|[X|[]]]; [eauto|]. injection X as _ <-. eauto.
      * intros w X. destruct (in_put _ _ _ _ _ N X) as [->|Z]; [exact I|auto].
      * intros F. destruct (T4 F) as [Q|Q]; [auto|right]. eapply keep_failing; eauto.
      * intros id j' X. apply in_app_iff in X as [X|[X|[]]]; [eauto|]. injection X as _ <-. eauto.
  - pose proof T as T0. destruct T as [T1 T2 T3 T4]. destruct H; cbn in *.
    + split; [|auto]. constructor; cbn; auto; [eapply (dinv_put _ i _ _ T0); cbn; eauto; exact I|]. intros F. destruct (T4 F) as [Q|Q]; [auto|right]. eapply keep_failing; eauto.
    + split; [|auto]. constructor; cbn; auto; [eapply (dinv_put _ i _ _ T0); cbn; eauto; exact I|]. intros F. destruct (T4 F) as [Q|Q]; [auto|right]. eapply keep_failing; eauto.
    + split; [|auto]. constructor; cbn; auto; [eapply (dinv_put _ i _ _ T0); cbn; eauto; exact I|]. intros F. destruct (T4 F) as [Q|Q]; [auto|right]. eapply keep_failing; eauto.
    + split; [|auto]. constructor; cbn; auto.
      * intros id' j' X. apply (T2 id' j'). auto.
      * eapply (dinv_put _ i _ _ T0); cbn; eauto. left. apply (T2 id j). auto.
      * intros F. destruct (T4 F) as [Q|Q]; [auto|right]. eapply keep_failing; eauto.
    + pose proof (T3 _ (nth_error_In _ _ H)) as O. cbn in O. destruct O as [[p O]|[[O|[O|O]] SP]]; try discriminate.
      * injection O as -> ->. destruct (dir_body E p (m_all d) (m_world d)) as [w' rr] eqn:DB. injection H0 as <- <-. destruct (dir_body_err _ _ _ _ _ DB) as [B1 B2].
        split; [constructor; cbn; auto|unfold err_of; cbn; rewrite B1; auto].
        { eapply (dinv_put _ i _ _ T0); cbn; eauto. right. split; [left; reflexivity|exact B2]. }
        { intros F. unfold err_of at 1. cbn. rewrite B1. destruct (T4 F) as [Q|Q]; [auto|right]. eapply keep_failing; eauto. }
      * injection O as -> ->. injection H0 as <- <-. split; [constructor; cbn; auto|auto].
        { eapply (dinv_put _ i _ _ T0); cbn; eauto. right. auto. }
        { intros F. destruct (m_all d) eqn:MA; cbn in F.
          - right. eexists. split; [eapply in_put_new; eauto|exact F].
          - destruct (T4 eq_refl) as [Q|Q]; [auto|right]. eapply keep_failing; eauto. all: left; intros []. }
    + pose proof (T3 _ (nth_error_In _ _ H)) as O. cbn in O. destruct O as [[p O]|[[O|[O|O]] SP]]; try discriminate. injection O as ->. split; [|auto]. constructor; cbn; auto.
      * eapply (dinv_put _ i _ _ T0); cbn; eauto. right. auto.
      * intros F. destruct (T4 F) as [Q|Q]; [auto|right]. eapply keep_failing; eauto.
    + split; [|auto]. constructor; cbn; auto; [eapply (dinv_put _ i _ _ T0); cbn; eauto; exact I|]. intros F. destruct (T4 F) as [Q|Q]; [auto|right]. eapply keep_failing; eauto. all: left; cbn; discriminate.
    + pose proof (T3 _ (nth_error_In _ _ H)) as O. cbn in O. destruct O as [[p O]|[[O|[O|O]] SP]]; try discriminate. split; [|auto]. constructor; cbn; auto.
      * eapply (dinv_put _ i _ _ T0); cbn; eauto; exact (SP eq_refl).
      * intros F. destruct (T4 F) as [Q|Q]; [auto|right]. eapply keep_failing; eauto. all: right; exact I.
    + pose proof (T3 _ (nth_error_In _ _ H)) as O. cbn in O. split; [|auto]. constructor; cbn; auto. eapply (dinv_put _ i _ _ T0); cbn; eauto; exact I.
  - destruct H. pose proof T as T0. destruct T as [T1 T2 T3 T4]. cbn in *. split; auto. constructor; cbn; auto; [eapply (dinv_put _ i _ _ T0); cbn; eauto; exact I|].
    intros F. destruct (T4 F) as [Q|Q]; [auto|right]. eapply keep_failing; eauto.
Qed.
Lemma dinv_steps s t s' : dinv s -> steps mk_error s t s' -> dinv s' /\ (err_of (data s) <> "" -> err_of (data s') <> "").
Proof. intros T H. induction H as [s|s t s1 x s2 H IH HS]; [auto|]. destruct (IH T) as [T1 E1]. destruct (dinv_step _ _ _ T1 HS) as [T2 E2]. auto. Qed.
Lemma dinv_make n ps d : m_all d = true -> dinv (init n (make_dirs_prog E ps CRet) d).
Proof.
  intros HA. constructor; cbn; [|tauto| |congruence].
  - apply do_latch. clear. induction ps as [|q ps IH]; cbn; [apply do_wait; apply do_do; [intros x; split; reflexivity|intros _; apply do_ret]|]. constructor. intros []; [exact IH|constructor].
  - intros w X. apply repeat_spec in X. subst w. exact I.
Qed.
End Dirs.

(** make_dirs_ with any number of workers, on every schedule, whatever requests fail: an error that was recorded before stays recorded, and when the
    workers have nothing to do any more and the function has found a directory that could not be made, an error is recorded. *)
Theorem C46_make_dirs_records : forall E ps n d t s, m_all d = true -> steps mk_error (init n (make_dirs_prog E ps CRet) d) t s ->
  (w_err (m_world d) <> "" -> w_err (m_world (data s)) <> "") /\
  (m_all (data s) = false -> (forall w, In w (workers s) -> w = WLock \/ w = WHold \/ w = WWait \/ w = WDone) -> w_err (m_world (data s)) <> "").
Proof.
  intros E ps n d t s HA H. destruct (dinv_steps E _ t s (dinv_make E n ps d HA) H) as [T K]. split; [exact K|]. intros F W.
  destruct (di_flag _ _ T F) as [Q|(w & A & B)]; [exact Q|]. destruct (W w A) as [->|[->|[->| ->]]]; destruct B.
Qed.
(** a directory cannot be made: the flag is cleared and the error recorded *)
Example C46_records_hypotheses : exists E t s, m_all mk0 = true /\ steps mk_error (init 1 (make_dirs_prog E ["out"] CRet) mk0) t s /\ m_all (data s) = false /\
  (forall w, In w (workers s) -> w = WLock \/ w = WHold \/ w = WWait \/ w = WDone).
Proof.
  exists bad_env.
  destruct (run_check mk_error [C 0; C 0; C 0; W 0; W 0; W 0; W 0; W 0; W 0; W 0; C 0; C 0] (init 1 (make_dirs_prog bad_env ["out"] CRet) mk0)
    (fun t s => negb (m_all (data s)) && forallb (fun w => match w with WLock | WHold | WWait | WDone => true | _ => false end) (workers s))) as (t & s & R & O); [vm_compute; reflexivity|].
  apply andb_prop in O as [O1 O2]. exists t, s. split; [reflexivity|]. split; [exact R|]. split; [destruct (m_all (data s)); [discriminate|reflexivity]|].
  intros w I. rewrite forallb_forall in O2. specialize (O2 w I). destruct w; try discriminate; auto.
Qed.

(** *** From the sinks to the array: if the files or objects for the chunks (shards) cannot be made, the flush throws, so that the append
    reports an error; and at the end of the stream destroy does not delete it. Both versions, both kinds of store. *)
Theorem C46_flush_reports : forall E a w awc aws,
  a_toflush a <> 0%Z -> compress_buffers E (a, w) = (awc, Ok tt) -> a_sinks (fst awc) = [] -> make_data_sinks E awc = (aws, Ok false) ->
  flush E (a, w) = (aws, Throw "CHECK(flush_impl_())"%string).
Proof.
  intros E a w [ac wc] [as' ws] T C S M. cbn [fst] in S. unfold flush, bind at 1. unfold getA at 1. cbn [fst]. destruct (Z.eqb_spec (a_toflush a) 0) as [Z0|_]; [contradiction|].
  unfold bind at 1. rewrite C. unfold bind at 1. unfold flush_impl, bind at 1. unfold getA at 1. cbn [fst]. destruct (a_v3 ac).
  - unfold flush_impl_v3, bind at 1. unfold getA at 1. cbn [fst]. rewrite S. unfold bind at 1. rewrite M. reflexivity.
  - unfold flush_impl_v2, bind at 1. unfold getA at 1. cbn [fst]. rewrite S. unfold bind at 1. cbn [expectM]. unfold ret at 1. unfold bind at 1. rewrite M. reflexivity.
Qed.
Theorem C46_finalize_reports : forall E a w awc aws,
  a_toflush a <> 0%Z -> compress_buffers E (set_final a true, w) = (awc, Ok tt) -> a_sinks (fst awc) = [] -> make_data_sinks E awc = (aws, Ok false) ->
  finalize_array E (a, w) = (aws, Ok false).
Proof.
  intros E a w awc aws T C S M. pose proof (C46_flush_reports E (set_final a true) w awc aws T C S M) as F.
  unfold finalize_array, bind at 1. unfold modA at 1. cbn [fst snd]. unfold bind at 1. unfold catchM, bind at 1. rewrite F. reflexivity.
Qed.
(** a Zarr V3 array with three frames to flush; the next request, to make a directory, fails *)
Example C46_flush_hypotheses :
  let u := ExamplesUse.ex_plain 3 false in
  match Api.api_create (SessionSpec.u_env u) (Some (SessionSpec.u_set u)) (SessionSpec.u_world u) with
  | (w1, Ok (Some s1)) =>
      match Api.api_appends (SessionSpec.u_env u) (SessionSpec.calls (ExamplesUse.ex_groups 2 3)) (s1, w1) with
      | ((s2, w2), _) =>
          match Stream.s_writers s2 with
          | [a] => let E := AnswerSpec.failing (SessionSpec.u_env u) (Nat.eqb (w_tick w2)) in
                   (a_toflush a =? 0)%Z = false /\ (let '((a', _), r) := compress_buffers E (a, w2) in a_sinks a' = [] /\ r = Ok tt) /\
                   (let '(_, r) := make_data_sinks E (fst (compress_buffers E (a, w2))) in r = Ok false)
          | _ => False
          end
      end
  | _ => False
  end.
Proof. vm_compute. auto. Qed.

Print Assumptions C46_make_dirs_records.
Print Assumptions C46_flush_reports.
Print Assumptions C46_finalize_reports.
