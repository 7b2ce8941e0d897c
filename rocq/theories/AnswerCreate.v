(** Creating a stream on S3 while the server refuses requests: it succeeds only if every request after the opening of the
    connections was answered, and then it is as if only the connections that answered had been asked for. *)
Require Import ZArith List Bool String Ascii Lia.
Require Import Verif.Base Verif.Dim Verif.Json Verif.World Verif.Writer Verif.AnswerProofs Verif.Stream Verif.Api Verif.RepProofs.
Require Verif.AnswerStream.
Import ListNotations.
Open Scope string_scope. Open Scope list_scope. Open Scope Z_scope.

Section Rep.
Variable E : env.
Definition I_ms (s : stream) : Prop := s_bucket s <> None /\ Forall slot_obj (map snd (s_msinks s)).
Notation rt := (rep E (fun tw : TW => snd tw) (fun tw => I_ms (fst tw))).
Notation rw := (rep E (fun w : world => w) (fun _ => True)).
Definition names_obj (o : option (list (string * option sink))) : Prop := match o with Some l => Forall slot_obj (map snd l) | None => True end.
Lemma m_onT {A} (P Q : A -> Prop) m : rw P Q m -> rt P Q (onT m).
Proof. intros H [s w] HI. unfold onT. cbn [snd fst] in *. destruct (H w Logic.I) as (_ & A2 & A3 & A4 & A5). destruct (m w) as [w' r]. cbn in *. repeat split; auto; apply HI. Qed.
Ltac rs := first
  [ apply rep_ret; first [exact Logic.I|assumption|solve [auto]]
  | apply rep_throw | apply rep_ub | apply rep_hang
  | apply rep_expect; first [intros _; exact Logic.I|assumption|solve [auto]]
  | apply rep_lift; intros; first [exact Logic.I|assumption|solve [auto]] ].
Ltac nx := eapply rep_seq with (P := anyv); [rs|intros ? _].
Lemma m_sinks v b base : rw names_obj absent (make_metadata_sinks_s3 E v b base).
Proof.
  unfold make_metadata_sinks_s3. nx. nx. eapply rep_bind; [apply r_bucket| |].
  - intros ok _. destruct ok; [|apply rep_ret; exact Logic.I]. nx. eapply rep_seq with (P := fun l : list (string * option sink) => Forall slot_obj (map snd l)).
    + apply rep_mfold; [|constructor]. intros acc k _ Ha. eapply rep_seq with (P := anyv); [apply r_s3_sink|intros s _]. apply rep_ret. rewrite map_app. apply Forall_app. split; auto. constructor; [exact Logic.I|constructor].
    + intros l Hl. apply rep_ret. exact Hl.
  - intros ok _ ->. apply bad_ret. reflexivity.
Qed.
Lemma m_create : rt anyv failed (create_metadata_sinks E).
Proof.
  unfold create_metadata_sinks. eapply rep_seq with (P := fun s => s_bucket s <> None).
  { apply rep_calm. intros [s w] [H H']. repeat split; auto. intros v X. injection X as <-. exact H. }
  intros s HS. cbv zeta. eapply rep_bind with (P := names_obj) (Q := absent).
  - apply m_onT. apply rep_catch.
    + eapply rep_bind with (P := names_obj) (Q := absent).
      * destruct (s_bucket s) as [b|]; [apply m_sinks|contradiction].
      * intros [l|] Hl; [apply rep_ret; exact Hl|]. eapply rep_seq with (P := anyv); [apply r_err; discriminate|intros _ _]. apply rep_ret. exact Logic.I.
      * intros o Ho ->. eapply bad_bind; [apply r_err with (Q := never); discriminate|]. intros _ _. apply bad_ret. reflexivity.
    + intros e. eapply rep_seq with (P := anyv); [apply r_err; discriminate|intros _ _]. apply rep_ret. exact Logic.I.
    + intros e. eapply bad_bind; [apply r_err with (Q := never); discriminate|]. intros _ _. apply bad_ret. reflexivity.
  - intros [l|] Hl; [|apply rep_ret; exact Logic.I]. eapply rep_seq with (P := anyv); [|intros _ _; apply rep_ret; exact Logic.I].
    apply rep_calm. intros [s' w'] [H H']. cbn. repeat split; auto.
  - intros o Ho ->. apply bad_ret. reflexivity.
  Unshelve. all: exact E.
Qed.
Lemma m_write k d err : err <> "" -> rt anyv failed (write_metadata E k d err).
Proof.
  intros He [s w] [HB HI]. cbn [fst snd] in *. unfold write_metadata. destruct (find_key k (s_msinks s)) as [i|] eqn:FK.
  2:{ exact (rep_throw E (fun tw : TW => snd tw) (fun tw => I_ms (fst tw)) anyv failed "_Map_base::at" (s, w) (conj HB HI)). }
  assert (ER : forall m, m <> "" -> rt anyv failed (onT (set_error m ;;; ret false))).
  { intros m Hm. apply m_onT. eapply rep_seq with (P := anyv); [apply r_err; exact Hm|intros _ _]. apply rep_ret. exact Logic.I. }
  assert (NI : slot_obj (snd (nth i (s_msinks s) (k, None)))).
  { pose proof (nth_slot (map snd (s_msinks s)) i HI) as X. change None with (snd (k, @None sink)) in X at 1. rewrite map_nth in X. exact X. }
  destruct (nth i (s_msinks s) (k, None)) as [k' [sk|]] eqn:N.
  - cbn [snd slot_obj] in NI. destruct (r_write E 0 d (sk, w) NI) as (A1 & A2 & A3 & A4 & A5). destruct (sink_write E 0 d (sk, w)) as [[sk1 w1] r1]. cbn [fst snd] in *.
    assert (J : I_ms (set_msinks s (upd (s_msinks s) i (k', Some sk1)))).
    { split; [exact HB|]. cbn. unfold upd. rewrite map_app. rewrite <- (firstn_skipn i (s_msinks s)), map_app in HI. apply Forall_app in HI as [X Y]. apply Forall_app. split; [exact X|]. destruct (skipn i (s_msinks s)) as [|[? ?] ?]; cbn in *; [constructor|]. inversion Y; subst. constructor; auto. }
    destruct r1 as [[]|m| |].
    + cbn [fst snd]. split; [exact J|]. split; [exact A2|]. split; [exact A3|]. split; [intros ? _; exact Logic.I|]. intros R. destruct (A5 R) as [X|X]; [left; exact X|]. specialize (X true eq_refl). discriminate.
    + destruct (ER err He (set_msinks s (upd (s_msinks s) i (k', Some sk1)), w1) J) as (B1 & B2 & B3 & B4 & B5). cbn [fst snd] in *. split; [exact B1|]. split; [lia|]. split; [auto|]. split; [auto|]. intros _. left. unfold onT, bind, set_error. cbn. exact He.
    + cbn [fst snd]. split; [exact J|]. split; [exact A2|]. split; [exact A3|]. split; [discriminate|]. intros _. right. discriminate.
    + cbn [fst snd]. split; [exact J|]. split; [exact A2|]. split; [exact A3|]. split; [discriminate|]. intros _. right. discriminate.
    + cbn [fst snd]. split; [exact J|]. split; [exact A2|]. split; [exact A3|]. split; [discriminate|]. intros _. right. discriminate.
  - exact (ER ("Metadata sink '" ++ k ++ "'not found")%string ltac:(discriminate) (s, w) (conj HB HI)).
Qed.
Lemma m_get Q : rt anyv Q getT.
Proof. apply rep_calm. intros [s w] H. repeat split; auto; apply H. Qed.
Lemma m_base : rt anyv failed (write_base_metadata E).
Proof. unfold write_base_metadata. eapply rep_seq with (P := anyv); [apply m_get|intros s _]. destruct (base_metadata s). apply m_write. discriminate. Qed.
Lemma m_group : rt anyv failed (write_group_metadata E).
Proof. unfold write_group_metadata. eapply rep_seq with (P := anyv); [apply m_get|intros s _]. destruct (group_metadata s). apply m_write. discriminate. Qed.
Lemma m_external : rt anyv failed (write_external_metadata E).
Proof. unfold write_external_metadata. eapply rep_seq with (P := anyv); [apply m_get|intros s _]. match goal with |- rep _ _ _ _ _ (if ?b then _ else _) => destruct b end; [rs|]. apply m_write. discriminate. Qed.
Lemma m_check {B} (P Q : B -> Prop) m e (f : M TW B) : rt anyv failed m -> rt P Q f -> rt P Q (ok <- m ;; expectM ok e ;;; f).
Proof.
  intros H1 H2. eapply rep_bind; [exact H1| |].
  - intros ok _. nx. exact H2.
  - intros ok _ ->. intros s _. right. discriminate.
Qed.
(** what the constructor does after it has connected *)
Definition setup : M TW unit :=
  ok <- create_metadata_sinks E ;; expectM ok "create_metadata_sinks_" ;;;
  ok <- write_base_metadata E ;; expectM ok "write_base_metadata_" ;;;
  ok <- write_group_metadata E ;; expectM ok "write_group_metadata_" ;;;
  ok <- write_external_metadata E ;; expectM ok "write_external_metadata_".
Lemma m_setup : rt anyv never setup.
Proof.
  unfold setup. do 3 (apply m_check; [first [apply m_create|apply m_base|apply m_group]|]). eapply rep_bind; [apply m_external| |].
  - intros ok _. rs.
  - intros ok _ ->. intros s _. right. discriminate.
Qed.
End Rep.

(** *** the pool of connections *)
Section Pool.
Variable E : env.
Fixpoint answers (t n : nat) : nat := match n with O => 0%nat | S n' => ((if e_s3 E t then 1 else 0) + answers (S t) n')%nat end.
Lemma answers_le : forall n t, (answers t n <= n)%nat.
Proof. induction n as [|n IH]; intros t; cbn; [lia|]. specialize (IH (S t)). destruct (e_s3 E t); lia. Qed.
Lemma open_ok : forall n w, open_connections E n w = (mkworld (w_trace w) (w_tick w + n) (w_conns w + answers (w_tick w) n) (w_err w), Ok tt).
Proof.
  induction n as [|n IH]; intros w; cbn [open_connections answers].
  - unfold ret. rewrite !Nat.add_0_r. destruct w; reflexivity.
  - unfold s3_request, next_tick, bind, ret, return_connection, modM. cbn [fst snd]. destruct (e_s3 E (w_tick w)) eqn:X; cbn [fst snd w_trace w_tick w_conns w_err]; rewrite IH; cbn [w_trace w_tick w_conns w_err]; f_equal; f_equal; lia.
Qed.
End Pool.
Lemma answers_all E : (forall t, e_s3 E t = true) -> forall n t, answers E t n = n.
Proof. intros H. induction n as [|n IH]; intros t; cbn; [reflexivity|]. rewrite H, IH. reflexivity. Qed.

Lemma store_ok E s b w w' : s_bucket s = Some b -> create_store E s w = (w', Ok true) ->
  let n := answers E (w_tick w) (e_conns E) in
  n <> 0%nat /\ e_s3 E (w_tick w + e_conns E) = true /\ w' = mkworld (w_trace w) (S (w_tick w + e_conns E)) n (w_err w).
Proof.
  intros B H n. unfold create_store in H. rewrite B in H. unfold modM, bind in H. cbn [fst snd w_trace w_tick w_conns w_err] in H. rewrite open_ok in H. cbn [fst snd w_trace w_tick w_conns w_err getM] in H. rewrite Nat.add_0_l in H. fold n in H.
  unfold getM in H. cbn [fst snd w_trace w_tick w_conns w_err] in H. destruct (Nat.eqb_spec n 0) as [Z0|Z0].
  - exfalso. unfold set_error, modM, ret in H. cbn in H. congruence.
  - unfold get_connection in H. cbn [w_conns] in H. destruct n as [|n'] eqn:Hn; [lia|]. cbn [fst snd] in H. unfold s3_request, next_tick, bind, ret in H. cbn [fst snd w_tick w_trace w_err w_conns] in H.
    destruct (e_s3 E (w_tick w + e_conns E)) eqn:A; [|unfold set_error, modM in H; cbn in H; congruence].
    unfold return_connection, modM in H. cbn [fst snd w_tick w_trace w_err w_conns] in H. injection H as <-. auto.
Qed.
Lemma store_runs E s b w : s_bucket s = Some b -> (forall t, e_s3 E t = true) -> e_conns E <> 0%nat ->
  create_store E s w = (mkworld (w_trace w) (S (w_tick w + e_conns E)) (e_conns E) (w_err w), Ok true).
Proof.
  intros B H N. unfold create_store. rewrite B. unfold modM, bind. cbn [fst snd w_trace w_tick w_conns w_err]. rewrite open_ok. cbn [fst snd w_trace w_tick w_conns w_err getM]. rewrite Nat.add_0_l, answers_all by exact H.
  unfold getM. cbn [fst snd w_trace w_tick w_conns w_err]. destruct (Nat.eqb_spec (e_conns E) 0) as [Z0|Z0]; [contradiction|].
  unfold get_connection. cbn [w_conns]. destruct (e_conns E) as [|n'] eqn:Hn; [contradiction|]. cbn [fst snd]. unfold s3_request, next_tick, bind, ret. cbn [fst snd w_tick w_trace w_err w_conns]. rewrite H.
  unfold return_connection, modM. cbn [fst snd w_tick w_trace w_err w_conns]. reflexivity.
Qed.

Lemma t_setup E obj fault answer conns : agr (fun tw : TW => snd tw) (as_there E fault answer) (setup (other E obj fault answer conns)) (setup E).
Proof.
  unfold setup. repeat (eapply agr_bind; [first [apply AnswerStream.t_create_metadata|apply AnswerStream.t_base|apply AnswerStream.t_group|apply AnswerStream.t_external|apply agr_expect]|intros ?]). apply agr_expect.
Qed.

Section Create.
Variables (E : env) (obj : string -> string -> option (list Z)) (fault answer : nat -> bool) (conns : nat).
Hypothesis calm : forall t, e_s3 E t = true.
Hypothesis quiet : forall t, fault t = e_fault E t.
Notation E' := (other E (e_obj0 E) fault answer conns).
Lemma not_refused a b : ~ refused_in E' a b -> forall t, (a <= t < b)%nat -> as_there E fault answer t.
Proof. intros H t Ht. split; [apply quiet|]. rewrite calm. destruct (answer t) eqn:A; [reflexivity|]. destruct H. exists t. auto. Qed.
Lemma bind_gen {S A B} (m : M S A) (f : A -> M S B) s : bind m f s = match m s with (s', Ok a) => f a s' | (s', Throw e) => (s', Throw e) | (s', UB) => (s', UB) | (s', Hang) => (s', Hang) end.
Proof. unfold bind. destruct (m s) as (s' & []); reflexivity. Qed.
Lemma lift_ok {S A} (o : outcome A) (s : S) : liftM o s = (s, o).
Proof. reflexivity. Qed.
Definition later_tick (w : world) (n : nat) : world := mkworld (w_trace w) (w_tick w + n) (w_conns w) (w_err w).
(** as if [n] connections had been asked for, and the requests counted from later on *)
Lemma create_as st x w w1 s1 : st_s3 st = Some x -> new_stream E' (Some st) w = (w1, Ok s1) -> w_err w1 = "" \/ ~ refused_in E' (w_tick w) (w_tick w1) ->
  exists n, (n <> 0)%nat /\ (n <= conns)%nat /\ new_stream (other E obj (e_fault E) (e_s3 E) n) (Some st) (later_tick w (conns - n)) = (w1, Ok s1).
Proof.
  intros S3 H Err. unfold new_stream in *.
  assert (V : forall n, validate_settings (other E obj (e_fault E) (e_s3 E) n) (later_tick w (conns - n)) (Some st) = validate_settings E' w (Some st)) by reflexivity.
  destruct (validate_settings E' w (Some st)) as [[]|e| |]; try discriminate.
  rewrite bind_gen, lift_ok in H. destruct (commit st) as [s|e| |] eqn:C; try discriminate.
  rewrite bind_gen, lift_ok in H. destruct (bytes_of_frame (s_dims s) (s_dtype s)) as [nb|e| |] eqn:BF; try discriminate. cbv zeta in H.
  assert (B : exists b, s_bucket s = Some b). { unfold commit in C. destruct (make_dimensions _); try discriminate. cbn [obind] in C. injection C as <-. cbn. rewrite S3. eexists. reflexivity. }
  destruct B as (b & B). set (s0 := set_fbuf s (zrep 0 nb) 0) in *.
  rewrite bind_gen in H. destruct (create_store E' s0 w) as [wa [[]|e| |]] eqn:CS; try discriminate.
  destruct (store_ok E' s0 b w wa B CS) as (N1 & N2 & N3). set (n := answers E' (w_tick w) (e_conns E')) in *. cbn [e_conns other] in N2, N3, n.
  pose proof (answers_le E' conns (w_tick w)) as NL. fold n in NL.
  rewrite bind_gen in H. cbn [expectM] in H. unfold ret at 1 in H. rewrite bind_gen, lift_ok in H. destruct (create_writers s0) as [ws|e| |] eqn:CW; try discriminate. cbv zeta in H.
  match type of H with context [let '(_, _) := _ (?s', wa) in _] => set (s2 := s') in * end.
  exists n. split; [exact N1|]. split; [exact NL|]. rewrite V.
  rewrite bind_gen, lift_ok, bind_gen, lift_ok. rewrite BF. cbv zeta. fold s0.
  rewrite bind_gen. rewrite (store_runs (other E obj (e_fault E) (e_s3 E) n) s0 b (later_tick w (conns - n)) B calm N1). cbn [e_conns other later_tick w_tick w_trace w_err].
  replace (S (w_tick w + (conns - n) + n)) with (S (w_tick w + conns)) by lia. rewrite <- N3.
  rewrite bind_gen. cbn [expectM]. unfold ret at 1. rewrite bind_gen, lift_ok, CW. cbv zeta. fold s2.
  assert (J : I_ms s2). { unfold s2. destruct (s_multi (set_writers s0 ws)); (split; [cbn; rewrite B; discriminate|]). all: unfold commit in C; destruct (make_dimensions _); try discriminate; cbn [obind] in C; injection C as <-; constructor. }
  clearbody s2. pose proof (m_setup E' (s2, wa) J) as (_ & _ & _ & _ & M5). set (E2 := other E obj (e_fault E) (e_s3 E) n) in *.
  pose proof (t_setup E2 (e_obj0 E) fault answer conns (s2, wa)) as [_ T2]. change (other E2 (e_obj0 E) fault answer conns) with E' in T2. cbn [fst snd] in *.
  match type of H with (match ?m (s2, wa) with _ => _ end = _) => change (m (s2, wa)) with (setup E' (s2, wa)) in H end.
  match goal with |- (match ?m (s2, wa) with _ => _ end = _) => change (m (s2, wa)) with (setup E2 (s2, wa)) end.
  rewrite <- T2; [exact H|]. apply (not_refused _ _). intros R. destruct (M5 R) as [X|X].
  - destruct (setup E' (s2, wa)) as [[s' w'] r]. cbn [fst snd] in *. destruct r; try discriminate; cbn [obind] in H. destruct Err as [Err|Err]; [congruence|]. apply Err.
    destruct R as (t & Rt & Ra). exists t. split; [|exact Ra]. assert (w' = w1) by congruence. subst w'. rewrite N3 in Rt. cbn [w_tick] in Rt. lia.
  - destruct (setup E' (s2, wa)) as [[s' w'] r]. cbn [fst snd] in *. destruct r as [[]|e| |]; try discriminate. exact (X tt eq_refl).
Qed.
End Create.
