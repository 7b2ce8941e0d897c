(** C66: what goes wrong can be traced to a request that failed. Vocabulary: SessionSpec.v, RunSpec.v, AnswerSpec.v. *)
Require Import ZArith List Bool String Ascii Lia.
Require Import Verif.Base Verif.Spec Verif.Dim Verif.World Verif.Writer Verif.Stream Verif.Api Verif.SettingsSpec Verif.SessionSpec Verif.RunSpec Verif.AnswerSpec.
Require Import Verif.SessionProofs Verif.AppendProofs Verif.RunProofs Verif.StoreProofs Verif.ExamplesUse.
Require Import Verif.Py Verif.PropsPySession.
Require Verif.AnswerProofs Verif.AnswerStream Verif.AnswerSession.
Import ListNotations.
Open Scope string_scope. Open Scope list_scope. Open Scope Z_scope.

Lemma there u bad a b : fair_use u -> ~ some_failed bad a b -> forall t, (a <= t < b)%nat -> AnswerProofs.as_there (u_env u) bad (fun k => negb (bad k)) t.
Proof.
  intros U H t Ht. split; [rewrite (fu_fs _ U)|rewrite (fu_s3 _ U)]; destruct (bad t) eqn:B; auto; exfalso; apply H; exists t; auto.
Qed.
(** bad requests in a bounded interval: there is one or there is none *)
Lemma failed_dec bad a b : some_failed bad a b \/ ~ some_failed bad a b.
Proof.
  destruct (existsb bad (seq a (b - a))) eqn:X.
  - left. apply existsb_exists in X as (k & K & B). apply in_seq in K. exists k. split; [lia|exact B].
  - right. intros (k & K & B). assert (Y : existsb bad (seq a (b - a)) = true) by (apply existsb_exists; exists k; split; [apply in_seq; lia|exact B]). congruence.
Qed.

(** A whole session, either version of Zarr, either kind of store, any pattern of failing requests: if none of the requests made failed,
    the session is the one of the machine on which nothing fails: the same results, the same store. *)
Theorem C66_nothing_failed : forall u groups bad w o, fair_use u -> whole_frames u groups ->
  session (failing (u_env u) bad) (u_set u) (calls groups) (u_world u) = (w, o) ->
  ~ some_failed bad (w_tick (u_world u)) (w_tick w) ->
  w = after u groups /\ o = Ok (Some (map (fun c => (st_success, Some (zlen c))) (calls groups), true)).
Proof.
  intros u groups bad w o U W H N. pose proof (AnswerSession.w_session (u_env u) bad (fun k => negb (bad k)) (u_set u) (calls groups) (u_world u)) as [_ T].
  change (AnswerProofs.other (u_env u) (e_obj0 (u_env u)) bad (fun k => negb (bad k)) (e_conns (u_env u))) with (failing (u_env u) bad) in T.
  rewrite H in T. cbn [fst] in T. specialize (T (there u bad _ _ U N)). pose proof (a_succeeds u U groups W) as S. unfold succeeds in S. unfold after. rewrite <- T in *. cbn [fst snd] in *. auto.
Qed.
(** So: if the session ends in any other way (create gives no stream, an append reports an error or fewer bytes, destroy does not delete
    the stream, an exception leaves destroy, undefined behaviour, a call that never returns), a request failed before it ended. *)
Theorem C66_something_failed : forall u groups bad w o, fair_use u -> whole_frames u groups ->
  session (failing (u_env u) bad) (u_set u) (calls groups) (u_world u) = (w, o) ->
  o <> Ok (Some (map (fun c => (st_success, Some (zlen c))) (calls groups), true)) ->
  some_failed bad (w_tick (u_world u)) (w_tick w).
Proof.
  intros u groups bad w o U W H N. destruct (failed_dec bad (w_tick (u_world u)) (w_tick w)) as [X|X]; [exact X|].
  destruct N. exact (proj2 (C66_nothing_failed u groups bad w o U W H X)).
Qed.

(** The same after every call: create fails only if a request failed until then; and so do the append calls. *)
Theorem C66_create : forall u bad w o, fair_use u -> api_create (failing (u_env u) bad) (Some (u_set u)) (u_world u) = (w, o) ->
  (exists s, o = Ok (Some s) /\ running u [] s w) \/ some_failed bad (w_tick (u_world u)) (w_tick w).
Proof.
  intros u bad w o U H. destruct (failed_dec bad (w_tick (u_world u)) (w_tick w)) as [X|X]; [auto|left].
  pose proof (AnswerSession.w_create (u_env u) bad (fun k => negb (bad k)) (Some (u_set u)) (u_world u)) as [_ T].
  change (AnswerProofs.other (u_env u) (e_obj0 (u_env u)) bad (fun k => negb (bad k)) (e_conns (u_env u))) with (failing (u_env u) bad) in T.
  rewrite H in T. cbn [fst] in T. specialize (T (there u bad _ _ U X)).
  destruct (created u U) as (s1 & w1 & R1 & _). rewrite R1 in T. injection T as -> ->. exists s1. split; [reflexivity|]. exists s1, w1. split; [exact R1|reflexivity].
Qed.
Theorem C66_appends : forall u groups bad w1 s1 sw o, fair_use u -> whole_frames u groups ->
  api_create (failing (u_env u) bad) (Some (u_set u)) (u_world u) = (w1, Ok (Some s1)) ->
  api_appends (failing (u_env u) bad) (calls groups) (s1, w1) = (sw, o) ->
  (o = Ok (map (fun c => (st_success, Some (zlen c))) (calls groups)) /\ running u groups (fst sw) (snd sw)) \/ some_failed bad (w_tick (u_world u)) (w_tick (snd sw)).
Proof.
  intros u groups bad w1 s1 [s w] o U W C A. cbn [fst snd]. destruct (failed_dec bad (w_tick (u_world u)) (w_tick w)) as [X|X]; [auto|left].
  pose proof (AnswerSession.w_create (u_env u) bad (fun k => negb (bad k)) (Some (u_set u)) (u_world u)) as [L1 T1].
  pose proof (AnswerStream.t_api_appends (u_env u) (e_obj0 (u_env u)) bad (fun k => negb (bad k)) (e_conns (u_env u)) (calls groups) (s1, w1)) as [L2 T2].
  change (AnswerProofs.other (u_env u) (e_obj0 (u_env u)) bad (fun k => negb (bad k)) (e_conns (u_env u))) with (failing (u_env u) bad) in *.
  rewrite C in L1, T1. rewrite A in L2, T2. cbn [fst snd] in *.
  assert (G : forall t, (w_tick (u_world u) <= t < w_tick w)%nat -> AnswerProofs.as_there (u_env u) bad (fun k => negb (bad k)) t) by exact (there u bad _ _ U X).
  specialize (T1 ltac:(intros t Ht; apply G; lia)). specialize (T2 ltac:(intros t Ht; apply G; lia)).
  destruct (run_state u U groups W) as (s' & w' & _ & (s1' & w1' & C' & A') & _). rewrite <- T1 in C'. injection C' as <- <-. rewrite <- T2 in A'. injection A' as <- <- Eo. subst o.
  split; [reflexivity|]. exists s1, w1. split; [symmetry; exact T1|symmetry; exact T2].
Qed.

(** From Python: an exception of the constructor or of append, or the end of the process, only if a request failed before. *)
Theorem C66_python : forall u p arrays bad w o, py_fair u p arrays ->
  py_session (failing (u_env u) bad) p arrays (u_world u) = (w, o) ->
  (o = Ok tt /\ w = after u (map (group (u_bpp u) (u_height u) (u_width u)) arrays)) \/ some_failed bad (w_tick (u_world u)) (w_tick w).
Proof.
  intros u p arrays bad w o PF H. destruct (failed_dec bad (w_tick (u_world u)) (w_tick w)) as [X|X]; [auto|left].
  pose proof (AnswerSession.w_py_session (u_env u) bad (fun k => negb (bad k)) p arrays (u_world u)) as [_ T].
  change (AnswerProofs.other (u_env u) (e_obj0 (u_env u)) bad (fun k => negb (bad k)) (e_conns (u_env u))) with (failing (u_env u) bad) in T.
  rewrite H in T. cbn [fst] in T. specialize (T (there u bad _ _ (proj1 PF) X)).
  rewrite (py_ran u p arrays PF (a_succeeds u (proj1 PF) _ (py_whole u p arrays PF))) in T. injection T as -> ->. auto.
Qed.

(** *** The hypotheses can be met (for Python: C57_hypotheses): request 1000 and all later ones would fail, none is made; with request 12 failing, destroy does not delete the stream *)
Definition pf_u : use := ex_plain 3 false.
Example C66_hypotheses : fair_use pf_u /\ whole_frames pf_u (ex_groups 2 3) /\
  (let '(w, o) := session (failing (u_env pf_u) (fun k => Nat.leb 1000 k)) (u_set pf_u) (calls (ex_groups 2 3)) (u_world pf_u) in ~ some_failed (fun k => Nat.leb 1000 k) 0 (w_tick w)) /\
  (let '(w, o) := session (failing (u_env pf_u) (fun k => Nat.eqb 12 k)) (u_set pf_u) (calls (ex_groups 2 3)) (u_world pf_u) in
   match o with Ok (Some (_, deleted)) => deleted = false /\ w_tick w = 13%nat | _ => False end).
Proof.
  assert (F : fair_use pf_u) by (apply ex_plain_fair; auto). split; [exact F|]. split; [apply ex_frames_whole; lia|]. split.
  - assert (X : (w_tick (fst (session (failing (u_env pf_u) (fun k => Nat.leb 1000 k)) (u_set pf_u) (calls (ex_groups 2 3)) (u_world pf_u))) <=? 1000)%nat = true) by (vm_compute; reflexivity).
    destruct (session _ _ _ _) as [w o]. cbn [fst] in X. apply Nat.leb_le in X. intros (k & K & B). apply Nat.leb_le in B. lia.
  - vm_compute. auto.
Qed.

Print Assumptions C66_nothing_failed.
Print Assumptions C66_something_failed.
Print Assumptions C66_create.
Print Assumptions C66_appends.
Print Assumptions C66_python.
