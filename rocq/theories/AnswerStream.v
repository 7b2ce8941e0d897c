(** AnswerProofs for a stream: the calls of the C interface. *)
Require Import ZArith List Bool String Ascii Lia.
Require Import Verif.Base Verif.Dim Verif.Json Verif.World Verif.Writer Verif.AnswerProofs Verif.Stream Verif.Api.
Import ListNotations.
Open Scope string_scope. Open Scope list_scope. Open Scope Z_scope.

Section Answer.
Variables (E : env) (obj : string -> string -> option (list Z)) (fault answer : nat -> bool) (conns : nat).
Notation E' := (other E obj fault answer conns).
Notation good := (as_there E fault answer).
Notation rw := (agr (fun w : world => w) good).
Notation rt := (agr (fun tw : TW => snd tw) good).
Lemma t_onT {A} (m m' : M world A) : rw m m' -> rt (onT m) (onT m').
Proof.
  intros H [a w]. destruct (H w) as [X Y]. unfold onT. cbn [fst snd]. destruct (m w). cbn [fst snd] in *. split; [exact X|]. intros G. rewrite <- (Y G). reflexivity.
Qed.
Lemma t_getT : rt getT getT.
Proof. apply agr_calm. reflexivity. Qed.
Lemma t_modT f : rt (modT f) (modT f).
Proof. apply agr_calm. reflexivity. Qed.
Lemma t_on_writer {A} i (m m' : M AW A) : agr (fun aw : AW => snd aw) good m m' -> rt (on_writer i m) (on_writer i m').
Proof.
  intros H [s w]. unfold on_writer. destruct (nth_error (s_writers s) i) as [a|]; [|split; auto].
  destruct (H (a, w)) as [X Y]. destruct (m (a, w)) as [[? ?] ?]. cbn [fst snd] in *. split; [exact X|]. intros G. rewrite <- (Y G). reflexivity.
Qed.
Ltac st := first
  [ apply agr_ret | apply agr_throw | apply agr_ub | apply agr_hang | apply agr_expect | apply agr_lift
  | apply r_emit | apply r_conn | apply r_return | apply r_request | apply r_seterr ].
Ltac bd := eapply agr_bind; [|intros ?].
Ltac tg := bd; [apply t_getT|].
Ltac brk := match goal with |- agr _ _ (if ?b then _ else _) _ => destruct b end.
Lemma t_write_metadata k d err : rt (write_metadata E' k d err) (write_metadata E k d err).
Proof.
  intros [s w]. unfold write_metadata. destruct (find_key k (s_msinks s)) as [i|]; [|split; auto].
  assert (ER : forall m, rt (onT (set_error m ;;; ret false)) (onT (set_error m ;;; ret false))) by (intros; apply t_onT; bd; st).
  destruct (nth i (s_msinks s) (k, None)) as [k' [sk|]]; [|apply ER].
  destruct (k_write E obj fault answer conns 0 d (sk, w)) as [X Y]. cbn [snd] in *. destruct (sink_write E' 0 d (sk, w)) as [[sk1 w1] r1]. cbn [fst snd] in *.
  destruct r1 as [[]|m| |]; (split; [exact X|]; intros G; rewrite <- (Y G); reflexivity).
Qed.
Lemma t_base : rt (write_base_metadata E') (write_base_metadata E).
Proof. unfold write_base_metadata. tg. destruct (base_metadata a). apply t_write_metadata. Qed.
Lemma t_group : rt (write_group_metadata E') (write_group_metadata E).
Proof. unfold write_group_metadata. tg. destruct (group_metadata a). apply t_write_metadata. Qed.
Lemma t_external : rt (write_external_metadata E') (write_external_metadata E).
Proof. unfold write_external_metadata. tg. brk; [st|]. apply t_write_metadata. Qed.
Lemma t_create_metadata : rt (create_metadata_sinks E') (create_metadata_sinks E).
Proof.
  unfold create_metadata_sinks. tg. cbv zeta. bd.
  - apply t_onT. apply agr_catch.
    + bd.
      * destruct (s_bucket a) as [b|]; [apply r_meta_s3|]. bd; [apply r_meta_fs|st].
      * destruct a0; [st|]. bd; st.
    + intros m. bd; st.
  - destruct a0; [|st]. bd; [|st]. apply t_modT.
Qed.
Lemma t_frame i d : rt (on_writer i (write_frame E' d)) (on_writer i (write_frame E d)).
Proof. apply t_on_writer. apply a_write_frame. Qed.
Lemma t_multi bpp : forall fuel i d nb wd ht, rt (multiscale_loop E' bpp fuel i d nb wd ht) (multiscale_loop E bpp fuel i d nb wd ht).
Proof.
  induction fuel as [|f IH]; intros i d nb wd ht; cbn [multiscale_loop]; [st|]. tg. bd; [st|]. destruct a0 as [[[px nb'] w'] h']. destruct (nth i (s_scaled a) None).
  - cbv zeta. bd; [apply t_frame|]. bd; [st|]. bd; [apply t_modT|]. apply IH.
  - apply t_modT.
Qed.
Lemma t_multiscale d nb : rt (write_multiscale E' d nb) (write_multiscale E d nb).
Proof. unfold write_multiscale. tg. destruct (s_multi a); [|st]. destruct (dt_count <=? s_dtype a); [st|]. bd; [st|]. apply t_multi. Qed.
Lemma t_append_loop : forall fuel d pos wr, rt (append_loop E' fuel d pos wr) (append_loop E fuel d pos wr).
Proof.
  induction fuel as [|f IH]; intros d pos wr; cbn [append_loop]; [st|]. brk; [|st]. tg. cbv zeta. brk.
  - brk; [st|]. bd; [apply t_modT|]. brk; [|apply IH]. brk; [st|]. bd; [apply t_frame|]. brk; [st|]. bd; [apply t_modT|]. apply IH.
  - brk; brk; try st.
    + bd; [apply t_modT|]. apply IH.
    + bd; [apply t_frame|]. brk; [st|]. bd; [apply t_multiscale|]. apply IH.
Qed.
Lemma t_append d : rt (append E' d) (append E d).
Proof.
  unfold append. intros [s w].
  assert (X : forall b : bool, rt (expectM b "Cannot append data: " ;;; append_loop E' (S (List.length d)) d 0 0) (expectM b "Cannot append data: " ;;; append_loop E (S (List.length d)) d 0 0)) by (intros b; bd; [st|apply t_append_loop]).
  exact (X _ (s, w)).
Qed.
Lemma t_api_append d o : rt (api_append E' d o) (api_append E d o).
Proof. unfold api_append. destruct d as [d|]; [|st]. destruct o; [|st]. apply agr_catch; [|intros; st]. bd; [apply t_append|st]. Qed.
Lemma t_api_appends : forall l, rt (api_appends E' l) (api_appends E l).
Proof. induction l as [|d l IH]; cbn [api_appends]; [st|]. bd; [apply t_api_append|]. bd; [exact IH|st]. Qed.
End Answer.
