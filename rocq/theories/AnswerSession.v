(** AnswerProofs for a whole session: create, append calls, destroy. *)
Require Import ZArith List Bool String Ascii Lia.
Require Import Verif.Base Verif.Dim Verif.Json Verif.World Verif.Writer Verif.AnswerProofs Verif.Stream Verif.Api Verif.AnswerStream Verif.AnswerCreate Verif.Py.
Import ListNotations.
Open Scope string_scope. Open Scope list_scope. Open Scope Z_scope.

Section Answer.
Variables (E : env) (fault answer : nat -> bool).
Notation E' := (other E (e_obj0 E) fault answer (e_conns E)).
Notation good := (as_there E fault answer).
Notation rw := (agr (fun w : world => w) good).
Notation rt := (agr (fun tw : TW => snd tw) good).
Ltac st := first
  [ apply agr_ret | apply agr_throw | apply agr_ub | apply agr_hang | apply agr_expect | apply agr_lift
  | apply r_emit | apply r_conn | apply r_return | apply r_request | apply r_seterr | apply r_getM ].
Ltac bd := eapply agr_bind; [|intros ?].
Ltac brk := match goal with |- agr _ _ (if ?b then _ else _) _ => destruct b end.
Lemma w_open : forall n, rw (open_connections E' n) (open_connections E n).
Proof.
  induction n as [|n IH]; cbn [open_connections]; [st|]. bd; [st|]. destruct a. bd; [brk; st|]. exact IH.
Qed.
Lemma w_store s : rw (create_store E' s) (create_store E s).
Proof.
  unfold create_store. destruct (s_bucket s).
  - bd; [apply agr_mod; reflexivity|]. bd; [apply w_open|]. bd; [st|]. brk; [bd; st|]. bd; [st|]. eapply agr_bind; [st|intros [[] ?]]; bd; st.
  - bd; [apply r_exists|]. bd; [brk; [apply r_rm|st]|]. brk; [|bd; st]. bd; [apply r_mkdirs|]. brk; [st|bd; st].
Qed.
Lemma w_drop s : rw (drop_msinks s) (drop_msinks s).
Proof. unfold drop_msinks. apply agr_miter. intros [? [k|]]; cbn [snd]; [apply r_destroy|st]. Qed.
Lemma w_new o : rw (new_stream E' o) (new_stream E o).
Proof.
  intros w. unfold new_stream. change (validate_settings E' w o) with (validate_settings E w o).
  destruct (validate_settings E w o) as [[]|m| |]; try (split; [cbn; lia|auto]).
  destruct o as [st|]; [|split; [cbn; lia|auto]].
  match goal with |- _ /\ (_ -> ?a w = ?b w) => cut (rw a b); [intros X; exact (X w)|] end.
  bd; [st|]. bd; [st|]. cbv zeta. bd; [apply w_store|]. bd; [st|]. bd; [st|]. 
  match goal with |- rw (fun w => let '(_, _) := _ (?s, w) in _) _ => generalize s end. intros s w'.
  destruct (t_setup E (e_obj0 E) fault answer (e_conns E) (s, w')) as [X Y]. unfold setup in X, Y. cbn [snd fst] in X, Y.
  match goal with |- context [let '(_, _) := ?x in _] => destruct x as [[s1 w1] r] end. cbn [fst snd] in X, Y.
  destruct r as [[]|m| |]; cbn [fst]; try (split; [exact X|]; intros G; rewrite <- (Y G); reflexivity).
  destruct (w_drop s1 w1) as [X1 _]. split; [lia|]. intros G. rewrite <- Y; [reflexivity|]. intros t Ht. apply G. cbn [fst] in *. lia.
Qed.
Lemma w_create o : rw (api_create E' o) (api_create E o).
Proof. unfold api_create. apply agr_catch; [|intros; st]. bd; [apply w_new|st]. Qed.
Lemma t_msink i : rt (finalize_msink E' i) (finalize_msink E i).
Proof.
  intros [s w]. unfold finalize_msink. destruct (nth_error (s_msinks s) i) as [[k o]|]; [|split; auto].
  destruct (o_finalize E (e_obj0 E) fault answer (e_conns E) (o, w)) as [X Y]. destruct (finalize_sink E' (o, w)) as [[? ?] ?]. cbn [fst snd] in *. split; [exact X|]. intros G. rewrite <- (Y G). reflexivity.
Qed.
Lemma t_all {A} (f f' : A -> M TW bool) l : (forall a, rt (f a) (f' a)) -> rt (all_ok f l) (all_ok f' l).
Proof. intros H. induction l as [|a l IH]; cbn [all_ok]; [st|]. bd; [apply H|]. brk; [exact IH|st]. Qed.
Lemma t_destroy : rt (api_destroy E') (api_destroy E).
Proof.
  unfold api_destroy, finalize_stream. bd; [apply t_group|]. brk; [|st]. bd; [apply t_getT|]. bd; [apply t_all; intros; apply t_msink|]. brk; [|st].
  bd; [apply t_modT|]. bd; [apply t_getT|]. bd; [apply t_all; intros; apply t_on_writer; apply a_finalize|]. brk; [|st]. bd; [apply t_modT|st].
Qed.
Lemma w_session st calls : rw (session E' st calls) (session E st calls).
Proof.
  unfold session. bd; [apply w_create|]. destruct a as [s|]; [|st]. intros w.
  match goal with |- context [let '(_, _) := ?m (s, w) in _] => 
    match goal with |- _ /\ (_ -> _ = (let '(_, _) := ?m' (s, w) in _)) => assert (X : rt m m') end end.
  { bd; [apply t_api_appends|]. bd; [apply t_destroy|]. st. }
  destruct (X (s, w)) as [Y Z]. cbn [snd fst] in *. 
  match goal with |- context [let '(_, _) := ?x in _] => destruct x as [[s1 w1] r] end. cbn [fst snd] in *. split; [exact Y|]. intros G. rewrite <- (Z G). reflexivity.
Qed.
(** the Python binding *)
Lemma t_py_append m a : rt (py_append E' m a) (py_append E m a).
Proof. unfold py_append. destruct (read_mem _ _ _); [|st]. bd; [apply t_api_append|]. brk; st. Qed.
Lemma t_py_appends : forall l, rt (py_appends E' l) (py_appends E l).
Proof. induction l as [|[m a] l IH]; cbn [py_appends]; [st|]. bd; [apply t_py_append|exact IH]. Qed.
Lemma w_py_session p calls : rw (py_session E' p calls) (py_session E p calls).
Proof.
  unfold py_session. bd; [unfold py_create; bd; [apply w_create|]; destruct a; st|]. intros w.
  destruct (t_py_appends calls (a, w)) as [X Y]. destruct (py_appends E' calls (a, w)) as [sw r]. cbn [snd fst] in *.
  destruct (t_destroy sw) as [X1 Y1].
  destruct r as [[]|e| |]; cbn [fst].
  3, 4: split; [exact X|]; intros G; rewrite <- (Y G); reflexivity.
  all: destruct (api_destroy E' sw) as [sw' d]; cbn [fst snd] in *; split; [lia|]; intros G;
    rewrite <- Y by (intros t Ht; apply G; lia); rewrite <- Y1 by (intros t Ht; apply G; lia); reflexivity.
Qed.
End Answer.
