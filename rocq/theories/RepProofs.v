(** A calculus for reporting: whenever a request to the S3 server is refused, an error is recorded or the call says so. *)
Require Import ZArith List Bool String Ascii Lia.
Require Import Verif.Base Verif.Dim Verif.Json Verif.World Verif.Writer.
Import ListNotations.
Open Scope string_scope. Open Scope list_scope. Open Scope Z_scope.

Section Rep.
Variable E : env.
(** one of the requests number a .. b-1 was refused *)
Definition refused_in (a b : nat) : Prop := exists k, (a <= k < b)%nat /\ e_s3 E k = false.
Definition never {A} (_ : A) : Prop := False.
Definition anyv {A} (_ : A) : Prop := True.
Definition failed (b : bool) : Prop := b = false.

Section Gen.
Context {St : Type} (wd : St -> world) (I : St -> Prop).
(** [m] keeps I, never takes an error back, returns values in P; a refused request leaves an error or makes the value one of Q *)
Definition rep {A} (P Q : A -> Prop) (m : M St A) : Prop := forall s, I s ->
  I (fst (m s)) /\ (w_tick (wd s) <= w_tick (wd (fst (m s))))%nat /\ (w_err (wd s) <> "" -> w_err (wd (fst (m s))) <> "") /\ (forall v, snd (m s) = Ok v -> P v) /\
  (refused_in (w_tick (wd s)) (w_tick (wd (fst (m s)))) -> w_err (wd (fst (m s))) <> "" \/ forall v, snd (m s) = Ok v -> Q v).
(** [m] leaves an error or returns a value in Q, if it returns *)
Definition bad {A} (Q : A -> Prop) (m : M St A) : Prop := forall s, I s -> w_err (wd (fst (m s))) <> "" \/ forall v, snd (m s) = Ok v -> Q v.
(** [m] makes no request and leaves the error as it is *)
Lemma rep_calm {A} (P Q : A -> Prop) m : (forall s, I s -> I (fst (m s)) /\ w_tick (wd (fst (m s))) = w_tick (wd s) /\ (w_err (wd s) <> "" -> w_err (wd (fst (m s))) <> "") /\ forall v, snd (m s) = Ok v -> P v) -> rep P Q m.
Proof. intros H s HI. destruct (H s HI) as (A1 & A2 & A3 & A4). rewrite A2. repeat split; auto. intros (k & K & _). lia. Qed.
Lemma rep_ret {A} (P Q : A -> Prop) a : P a -> rep P Q (ret a).
Proof. intros H. apply rep_calm. intros s HI. repeat split; auto. cbn. intros v X. injection X as <-. auto. Qed.
Lemma rep_throw {A} (P Q : A -> Prop) e : rep P Q (throwM e).
Proof. apply rep_calm. intros s HI. repeat split; auto. discriminate. Qed.
Lemma rep_ub {A} (P Q : A -> Prop) : rep P Q ubM.
Proof. apply rep_calm. intros s HI. repeat split; auto. discriminate. Qed.
Lemma rep_hang {A} (P Q : A -> Prop) : rep P Q hangM.
Proof. apply rep_calm. intros s HI. repeat split; auto. discriminate. Qed.
Lemma rep_lift {A} (P Q : A -> Prop) o : (forall v, o = Ok v -> P v) -> rep P Q (liftM o).
Proof. intros H. apply rep_calm. intros s HI. repeat split; auto. Qed.
Lemma rep_expect (P Q : unit -> Prop) c e : (c = true -> P tt) -> rep P Q (expectM c e).
Proof. intros H. destruct c; [apply rep_ret; auto|apply rep_throw]. Qed.
Lemma rep_weak {A} (P P' Q Q' : A -> Prop) m : rep P Q m -> (forall v, P v -> P' v) -> (forall v, P v -> Q v -> Q' v) -> rep P' Q' m.
Proof. intros H H1 H2 s HI. destruct (H s HI) as (A1 & A2 & A3 & A4 & A5). repeat split; auto. intros R. destruct (A5 R); auto. Qed.
Lemma rep_bind {A B} (P Q : A -> Prop) (P' Q' : B -> Prop) m f :
  rep P Q m -> (forall v, P v -> rep P' Q' (f v)) -> (forall v, P v -> Q v -> bad Q' (f v)) -> rep P' Q' (bind m f).
Proof.
  intros Hm Hf Hb s HI. unfold bind. destruct (Hm s HI) as (A1 & A2 & A3 & A4 & A5). destruct (m s) as [s1 [a|e| |]]; cbn [fst snd] in *;
    try (repeat split; auto; try discriminate; intros R; destruct (A5 R); [left; auto|right; discriminate]).
  destruct (Hf a (A4 a eq_refl) s1 A1) as (B1 & B2 & B3 & B4 & B5). repeat split; auto; [lia|]. intros (k & K1 & K2).
  destruct (Nat.lt_ge_cases k (w_tick (wd s1))) as [L|L].
  - destruct (A5 (ex_intro _ k (conj (conj (proj1 K1) L) K2))) as [X|X]; [left; auto|]. exact (Hb a (A4 a eq_refl) (X a eq_refl) s1 A1).
  - apply B5. exists k. split; [lia|auto].
Qed.
(** when a failure never returns *)
Lemma rep_seq {A B} (P : A -> Prop) (P' Q' : B -> Prop) m f : rep P never m -> (forall v, P v -> rep P' Q' (f v)) -> rep P' Q' (bind m f).
Proof. intros H1 H2. eapply rep_bind; eauto. intros v _ []. Qed.
Lemma rep_catch {A} (P Q : A -> Prop) m h : rep P Q m -> (forall e, rep P Q (h e)) -> (forall e, bad Q (h e)) -> rep P Q (catchM m h).
Proof.
  intros Hm Hh Hb s HI. unfold catchM. destruct (Hm s HI) as (A1 & A2 & A3 & A4 & A5). destruct (m s) as [s1 [a|e| |]]; cbn [fst snd] in *; try (repeat split; auto; fail).
  destruct (Hh e s1 A1) as (B1 & B2 & B3 & B4 & B5). repeat split; auto; [lia|]. intros _. exact (Hb e s1 A1).
Qed.
Lemma rep_miter {A} (f : A -> M St unit) l : (forall a, In a l -> rep anyv never (f a)) -> rep anyv never (miter f l).
Proof. induction l as [|a l IH]; intros H; cbn; [apply rep_ret; exact Logic.I|]. eapply rep_seq; [apply H; left; auto|]. intros v _. apply IH. intros; apply H; right; auto. Qed.
Lemma rep_mfold {A B} (P : B -> Prop) (f : B -> A -> M St B) l : (forall b a, In a l -> P b -> rep P never (f b a)) -> forall b, P b -> rep P never (mfold f l b).
Proof. induction l as [|a l IH]; intros H b Hb; cbn; [apply rep_ret; auto|]. eapply rep_seq; [apply H; [left; auto|auto]|]. intros v Hv. apply IH; auto. intros; apply H; auto; right; auto. Qed.
Lemma bad_ret {A} (Q : A -> Prop) a : Q a -> bad Q (ret a).
Proof. intros H s _. right. cbn. intros v X. injection X as <-. auto. Qed.
Lemma bad_throw {A} (Q : A -> Prop) e : bad Q (throwM e).
Proof. intros s _. right. discriminate. Qed.
Lemma bad_bind {A B} (P P' : A -> Prop) (Q : B -> Prop) m f : rep P P' m -> (forall v, P v -> bad Q (f v)) -> bad Q (bind m f).
Proof.
  intros H1 H2 s HI. unfold bind. destruct (H1 s HI) as (A1 & _ & _ & A4 & _). destruct (m s) as [s1 [a|e| |]]; cbn [fst snd] in *; try (right; discriminate). apply H2; auto.
Qed.
End Gen.

(** ** requests *)
Notation id_w := (fun w : world => w).
Notation T_w := (fun _ : world => True).
Notation rw := (rep id_w T_w).
Lemma r_emit Q e : rw anyv Q (emit e).
Proof. apply rep_calm. intros w _. repeat split; auto. Qed.
Lemma r_err Q m : m <> "" -> rw anyv Q (set_error m).
Proof. intros H. apply rep_calm. intros w _. repeat split; auto. Qed.
Lemma b_err (Q : unit -> Prop) m : m <> "" -> bad id_w T_w Q (set_error m).
Proof. intros H w _. left. exact H. Qed.
Lemma r_conn Q : rw anyv Q get_connection.
Proof. apply rep_calm. intros w _. unfold get_connection. destruct (w_conns w); cbn; repeat split; auto. Qed.
Lemma r_return Q : rw anyv Q return_connection.
Proof. apply rep_calm. intros w _. repeat split; auto. Qed.
Lemma r_request : rw anyv (fun p => fst p = false) (s3_request E).
Proof.
  intros w _. unfold s3_request, bind, next_tick. cbn. repeat split; auto. intros (k & K & F). right. intros v X. injection X as <-. cbn. assert (k = w_tick w) as -> by lia. exact F.
Qed.
Ltac rs := first
  [ apply rep_ret; first [exact Logic.I|assumption|solve [auto]]
  | apply rep_throw | apply rep_ub | apply rep_hang
  | apply rep_expect; first [intros _; exact Logic.I|assumption|solve [auto]]
  | apply rep_lift; intros; first [exact Logic.I|assumption|solve [auto]]
  | apply r_emit | apply r_conn | apply r_return | apply r_err; discriminate ].
Ltac nx := eapply rep_seq with (P := anyv); [rs|intros ? _].
Lemma r_put b k d : rw anyv failed (s3_put E b k d).
Proof.
  unfold s3_put. nx. nx. nx. eapply rep_bind; [apply r_request| |].
  - intros [ok id] _. destruct ok; [nx; rs|rs].
  - intros [ok id] _ F. cbn in F. subst ok. apply bad_ret. reflexivity.
Qed.
Lemma r_create b k : rw anyv never (s3_create_multipart E b k).
Proof.
  unfold s3_create_multipart. nx. nx. eapply rep_bind; [apply r_request| |].
  - intros [ok id] _. nx. nx. rs.
  - intros [ok id] _ F. cbn in F. subst ok. eapply bad_bind with (P := never); [apply rep_throw with (Q := never)|intros ? []].
Qed.
Lemma r_part b k i n d : rw anyv failed (s3_upload_part E b k i n d).
Proof.
  unfold s3_upload_part. nx. nx. nx. nx. eapply rep_bind; [apply r_request| |].
  - intros [ok id] _. destruct ok; [nx; rs|rs].
  - intros [ok id] _ F. cbn in F. subst ok. apply bad_ret. reflexivity.
Qed.
Lemma r_complete b k i l : rw anyv failed (s3_complete E b k i l).
Proof.
  unfold s3_complete. nx. nx. nx. nx. eapply rep_bind; [apply r_request| |].
  - intros [ok id] _. destruct ok; [nx; rs|rs].
  - intros [ok id] _ F. cbn in F. subst ok. apply bad_ret. reflexivity.
Qed.
Lemma r_bucket b : rw anyv failed (bucket_exists E b).
Proof.
  unfold bucket_exists. nx. nx. eapply rep_bind; [apply r_request| |].
  - intros [ok id] _. nx. rs.
  - intros [ok id] _ F. cbn in F. subst ok. eapply bad_bind; [apply r_return with (Q := never)|]. intros _ _. apply bad_ret. reflexivity.
Qed.

(** ** an S3 sink *)
Notation T_s := (fun _ : SW => True).
Notation rsk := (rep (fun sw : SW => snd sw) T_s).
Lemma r_onW {A} (P Q : A -> Prop) m : rw P Q m -> rsk P Q (onW m).
Proof. intros H [s w] _. unfold onW. cbn [snd]. destruct (H w Logic.I) as (_ & A2 & A3 & A4 & A5). destruct (m w) as [w' r]. cbn in *. repeat split; auto. Qed.
Lemma r_getS : rsk anyv never getS.
Proof. apply rep_calm. intros [s w] _. repeat split; auto. Qed.
Lemma r_putS Q s : rsk anyv Q (putS s).
Proof. apply rep_calm. intros [s0 w] _. repeat split; auto. Qed.
Ltac rq := first [apply r_getS|apply r_putS|apply r_onW, r_conn|apply r_onW, r_return|rs].
Ltac nq := eapply rep_seq with (P := anyv); [rq|intros ? _].
Lemma r_create_upload : rsk anyv never (s3_create_upload E).
Proof. unfold s3_create_upload. nq. nq. nq. eapply rep_seq with (P := anyv); [apply r_onW, r_create|intros id _]. nq. rq. Qed.
Lemma r_caught m : rw anyv failed m -> rw anyv failed (catchM m (fun _ => ret false)).
Proof. intros H. apply rep_catch; [exact H|intros; rs|intros; apply bad_ret; reflexivity]. Qed.
Lemma r_flush_part : rsk anyv failed (s3_flush_part E).
Proof.
  unfold s3_flush_part. nq. destruct (s_nbuf v =? 0); [rs|]. eapply rep_seq with (P := anyv); [destruct (s_mp v); [rs|apply r_create_upload]|intros ? _]. nq. nq. destruct (s_mp v2) as [[id parts]|]; [|rs]. cbv zeta.
  eapply rep_bind; [apply r_onW, r_caught, r_part| |].
  - intros ok _. nq. nq. rs.
  - intros ok _ ->. eapply bad_bind; [apply r_onW, r_return with (Q := never)|intros _ _]. eapply bad_bind; [apply r_putS with (Q := never)|intros _ _]. apply bad_ret. reflexivity.
Qed.
Lemma r_put_object : rsk anyv failed (s3_put_object E).
Proof.
  unfold s3_put_object. nq. destruct (s_nbuf v =? 0); [rs|]. nq. eapply rep_bind; [apply r_onW, r_caught, r_put| |].
  - intros ok _. destruct ok; [nq|nq]; nq; rs.
  - intros ok _ ->. eapply bad_bind with (P := anyv) (P' := never); [rs|intros _ _]. eapply bad_bind; [apply r_onW, r_return with (Q := never)|intros _ _]. apply bad_ret. reflexivity.
Qed.
Lemma r_finalize_mp : rsk anyv failed (s3_finalize E).
Proof.
  unfold s3_finalize. nq. nq. destruct (s_mp v0) as [[id parts]|]; [|rs]. eapply rep_bind; [apply r_onW, r_complete| |].
  - intros ok _. nq. rs.
  - intros ok _ ->. eapply bad_bind; [apply r_onW, r_return with (Q := never)|intros _ _]. apply bad_ret. reflexivity.
Qed.
Lemma r_s3_flush : rsk anyv failed (s3_flush E).
Proof.
  unfold s3_flush. nq. eapply rep_bind with (P := anyv) (Q := failed).
  - destruct (s_mp v).
    + eapply rep_bind with (P := anyv) (Q := failed); [destruct (0 <? s_nbuf v); [apply r_flush_part|rs]| |].
      * intros ok _. destruct ok; [apply r_finalize_mp|rs].
      * intros ok _ ->. apply bad_ret. reflexivity.
    + destruct (0 <? s_nbuf v); [apply r_put_object|rs].
  - intros ok _. destruct ok; [nq; nq; rs|rs].
  - intros ok _ ->. apply bad_ret. reflexivity.
Qed.
Lemma r_write_loop : forall fuel d, rsk anyv failed (s3_write_loop E fuel d).
Proof.
  induction fuel as [|f IH]; intros d; cbn [s3_write_loop]; [rs|]. destruct (zlen d =? 0); [rs|]. nq. destruct (part_size <? s_nbuf v); [rs|]. cbv zeta. nq.
  eapply rep_bind with (P := anyv) (Q := failed); [match goal with |- rep _ _ _ _ (if ?b then _ else _) => destruct b end; [apply r_flush_part|rs]| |].
  - intros ok _. destruct ok; [apply IH|rs].
  - intros ok _ ->. apply bad_ret. reflexivity.
Qed.
Lemma r_s3_write off d : rsk anyv failed (s3_write E off d).
Proof. unfold s3_write. destruct (zlen d =? 0); [rs|]. nq. destruct (off <? s_nflush v); [rs|]. nq. apply r_write_loop. Qed.

(** ** sinks that are objects *)
Definition is_obj (s : sink) : Prop := match s with SS3 _ => True | SFile _ => False end.
Definition slot_obj (o : option sink) : Prop := match o with Some s => is_obj s | None => True end.
Notation rk := (rep (fun kw : KW => snd kw) (fun kw => is_obj (fst kw))).
Notation ro := (rep (fun kw : option sink * world => snd kw) (fun kw => slot_obj (fst kw))).
Lemma r_write off d : rk anyv failed (sink_write E off d).
Proof.
  intros [s w] H. cbn [fst] in H. destruct s as [f|s]; [destruct H|]. unfold sink_write, runS. cbn [fst snd]. destruct (r_s3_write off d (s, w) Logic.I) as (_ & A2 & A3 & A4 & A5). destruct (s3_write E off d (s, w)) as [[s' w'] r]. cbn in *. repeat split; auto.
Qed.
Lemma r_flush_sink : rk anyv failed (sink_flush E).
Proof.
  intros [s w] H. cbn [fst] in H. destruct s as [f|s]; [destruct H|]. unfold sink_flush, runS. cbn [fst snd]. destruct (r_s3_flush (s, w) Logic.I) as (_ & A2 & A3 & A4 & A5). destruct (s3_flush E (s, w)) as [[s' w'] r]. cbn in *. repeat split; auto.
Qed.
Lemma r_finalize_sink : ro anyv failed (finalize_sink E).
Proof.
  intros [o w] H. cbn [fst] in H. destruct o as [s|]; cbn [finalize_sink fst snd].
  - destruct (r_flush_sink (s, w) H) as (A1 & A2 & A3 & A4 & A5). destruct (sink_flush E (s, w)) as [[s' w'] r]. cbn [fst snd] in *.
    assert (D : sink_destroy s' w' = (w', Ok tt)) by (destruct s'; [destruct A1|reflexivity]).
    destruct r as [[]|e| |]; try (cbn [fst snd]; repeat split; auto; fail).
    rewrite D. cbn [fst snd]. repeat split; auto.
  - cbn. repeat split; auto. intros (k & K & _). lia.
Qed.
Definition slots_obj (o : option (list (option sink))) : Prop := match o with Some l => Forall slot_obj l | None => True end.
Lemma r_s3_sink b k : rw anyv never (s3_sink b k).
Proof. unfold s3_sink. nx. nx. rs. Qed.
Lemma r_paths base ds parts : rw anyv never (make_data_sink_paths E base ds parts false).
Proof.
  unfold make_data_sink_paths. nx. eapply rep_seq with (P := anyv).
  - apply rep_mfold; [|exact Logic.I]. intros b a _ _. nx. nx. cbv zeta. nx. rs.
  - intros ps _. nx. nx. rs.
Qed.
Lemma r_data_sinks b base ds parts : rw slots_obj never (make_data_sinks_s3 E b base ds parts).
Proof.
  unfold make_data_sinks_s3. nx. eapply rep_seq with (P := anyv); [apply r_paths|intros l _]. destruct (String.eqb b ""); [apply rep_ret; exact Logic.I|].
  eapply rep_seq with (P := Forall slot_obj).
  - apply rep_mfold; [|constructor]. intros acc k _ Ha. eapply rep_seq with (P := anyv); [apply r_s3_sink|intros s _]. apply rep_ret. apply Forall_app. split; auto. constructor; [exact Logic.I|constructor].
  - intros s Hs. apply rep_ret. exact Hs.
Qed.
Definition absent {A} (o : option A) : Prop := o = None.
Lemma r_sink b k : rw slot_obj absent (make_sink_s3 E b k).
Proof.
  unfold make_sink_s3. nx. nx. eapply rep_bind; [apply r_bucket| |].
  - intros ok _. destruct ok; [|apply rep_ret; exact Logic.I]. eapply rep_seq with (P := anyv); [apply r_s3_sink|intros s _]. apply rep_ret. exact Logic.I.
  - intros ok _ ->. apply bad_ret. reflexivity.
Qed.

(** ** a V2 array on S3 *)
Definition arr (a : writer) : Prop := a_v3 a = false /\ c_bucket (a_cfg a) <> None /\ Forall slot_obj (a_sinks a) /\ slot_obj (a_meta a).
Notation ra := (rep (fun aw : AW => snd aw) (fun aw => arr (fst aw))).
Lemma r_onWd {A} (P Q : A -> Prop) m : rw P Q m -> ra P Q (onWd m).
Proof. intros H [s w] I. unfold onWd. cbn [snd fst] in *. destruct (H w Logic.I) as (_ & A2 & A3 & A4 & A5). destruct (m w) as [w' r]. cbn in *. repeat split; auto; apply I. Qed.
Lemma r_getA Q : ra arr Q getA.
Proof. apply rep_calm. intros [s w] H. cbn [getA fst snd] in *. split; [exact H|]. split; [auto|]. split; [auto|]. intros v0 X. injection X as <-. exact H. Qed.
Lemma r_modA Q f : (forall a, arr a -> arr (f a)) -> ra anyv Q (modA f).
Proof. intros H. apply rep_calm. intros [s w] X. cbn in *. split; [apply H; auto|]. repeat split; auto. Qed.
Lemma Forall_upd {A} (P : A -> Prop) l i o : Forall P l -> P o -> Forall P (upd l i o).
Proof.
  intros H1 H2. unfold upd. apply Forall_app. rewrite <- (firstn_skipn i l) in H1. apply Forall_app in H1 as [X Y]. split; auto. destruct (skipn i l); constructor; auto. inversion Y; auto.
Qed.
Lemma nth_slot l i : Forall slot_obj l -> slot_obj (nth i l None).
Proof. intros H. destruct (nth_in_or_default i l None) as [X| ->]; [rewrite Forall_forall in H; auto|exact Logic.I]. Qed.
Lemma r_on_sink {A} (P Q : A -> Prop) i m : rk P Q m -> ra P Q (on_sink i m).
Proof.
  intros H [a w] (H1 & H2 & H3 & H4). unfold on_sink. cbn [fst snd] in *. pose proof (nth_slot _ i H3) as N. destruct (nth i (a_sinks a) None) as [s|]; [|exact (rep_ub (fun aw : AW => snd aw) (fun aw => arr (fst aw)) P Q (a, w) (conj H1 (conj H2 (conj H3 H4))))].
  destruct (H (s, w) N) as (A1 & A2 & A3 & A4 & A5). destruct (m (s, w)) as [[s' w'] r]. cbn [fst snd] in *. split; [|repeat split; auto]. repeat split; auto. cbn. apply Forall_upd; auto.
Qed.
Lemma r_on_slot {A} (P Q : A -> Prop) i m : ro P Q m -> ra P Q (on_slot i m).
Proof.
  intros H [a w] (H1 & H2 & H3 & H4). unfold on_slot. cbn [fst snd] in *. pose proof (nth_slot _ i H3) as N.
  destruct (H (nth i (a_sinks a) None, w) N) as (A1 & A2 & A3 & A4 & A5). destruct (m (nth i (a_sinks a) None, w)) as [[s' w'] r]. cbn [fst snd] in *. split; [|repeat split; auto]. repeat split; auto. cbn. apply Forall_upd; auto.
Qed.
Lemma r_on_meta {A} (P Q : A -> Prop) m : rk P Q m -> ra P Q (on_meta m).
Proof.
  intros H [a w] HA. pose proof HA as (H1 & H2 & H3 & H4). unfold on_meta. cbn [fst snd] in *. destruct (a_meta a) as [s|]; [|exact (rep_ub (fun aw : AW => snd aw) (fun aw => arr (fst aw)) P Q (a, w) HA)].
  destruct (H (s, w) H4) as (A1 & A2 & A3 & A4 & A5). destruct (m (s, w)) as [[s' w'] r]. cbn [fst snd] in *. split; [|repeat split; auto]. repeat split; auto.
Qed.
Ltac ga := eapply rep_seq with (P := arr); [apply r_getA|intros ? ?].
Ltac same := apply r_modA; intros ? (X1 & X2 & X3 & X4); repeat split; auto.
Lemma r_done_ok m : ra anyv never (onWd (job_done (true, m))).
Proof. apply r_onWd. unfold job_done. cbn. rs. Qed.
Lemma r_done_err m : m <> "" -> ra anyv never (onWd (job_done (false, m))).
Proof. intros H. apply r_onWd. unfold job_done. cbn. apply r_err. exact H. Qed.
Lemma r_compress : ra anyv never (compress_buffers E).
Proof.
  unfold compress_buffers. ga. destruct (c_comp (a_cfg v)); [|rs]. eapply rep_seq with (P := anyv); [rs|intros bpp _]. apply rep_miter. intros i _. ga. destruct (e_compress E b bpp _).
  - eapply rep_seq with (P := anyv); [same|intros ? _; apply r_done_ok].
  - apply r_done_err. discriminate.
Qed.
Lemma r_make_data : ra anyv never (make_data_sinks E).
Proof.
  unfold make_data_sinks. ga. eapply rep_seq with (P := slots_obj).
  - apply r_onWd. destruct (c_bucket (a_cfg v)) eqn:B; [apply r_data_sinks|]. exfalso. apply H; auto.
  - intros [l|] Hl; [|rs]. eapply rep_seq with (P := anyv); [|intros; rs]. apply r_modA. intros a (X1 & X2 & X3 & X4). repeat split; auto.
Qed.
Lemma r_make_meta : ra anyv failed (make_metadata_sink E).
Proof.
  unfold make_metadata_sink. ga. destruct (a_meta v); [rs|]. eapply rep_bind with (P := slot_obj) (Q := absent).
  - apply r_onWd. destruct (c_bucket (a_cfg v)) eqn:B; [apply r_sink|]. exfalso. apply H; auto.
  - intros [s|] Hs; [|rs]. eapply rep_seq with (P := anyv); [|intros; rs]. apply r_modA. intros a (X1 & X2 & X3 & X4). repeat split; auto.
  - intros o _ ->. apply bad_ret. reflexivity.
Qed.
Lemma r_metadata : ra anyv failed (write_array_metadata E).
Proof.
  unfold write_array_metadata. eapply rep_bind; [apply r_make_meta| |].
  - intros ok _. destruct ok; [|rs]. ga. cbv zeta. destruct H as (H & _). rewrite H. destruct (dtype_v2 _); [|rs]. eapply rep_seq with (P := anyv); [rs|intros n _]. apply r_on_meta, r_write.
  - intros ok _ ->. apply bad_ret. reflexivity.
Qed.
Lemma r_job i : ra anyv never (v2_job E i).
Proof.
  unfold v2_job. ga. eapply rep_bind with (P := fun r => fst r = true \/ snd r <> "") (Q := fun r => fst r = false).
  - apply rep_catch.
    + eapply rep_bind with (P := anyv) (Q := failed); [apply r_on_sink, r_write| |].
      * intros ok _. eapply rep_seq with (P := anyv); [rs|intros ? _]. apply rep_ret. auto.
      * intros ok _ ->. eapply bad_bind with (P := never) (P' := never); [apply rep_throw|intros ? []].
    + intros e. apply rep_ret. right. discriminate.
    + intros e. apply bad_ret. reflexivity.
  - intros [[] m] [K|K]; cbn in K; try discriminate; first [apply r_done_ok | apply r_done_err; exact K].
  - intros [b m] K F. cbn in *. subst b. destruct K as [K|K]; [discriminate|]. intros [a w] _. left. exact K.
Qed.
Lemma r_flush_impl : ra anyv never (flush_impl E).
Proof.
  unfold flush_impl. ga. destruct H as (H & _). rewrite H. unfold flush_impl_v2. ga. eapply rep_seq with (P := anyv); [rs|intros ? _]. eapply rep_seq with (P := anyv); [apply r_make_data|intros ok _]. destruct ok; [|rs]. ga. eapply rep_seq with (P := anyv); [rs|intros ? _].
  eapply rep_seq with (P := anyv); [apply rep_miter; intros; apply r_job|intros; rs].
Qed.
(** a failure that is an exception at once *)
Lemma r_check {B} (P Q : B -> Prop) m e (f : M AW B) : ra anyv failed m -> ra P Q f -> ra P Q (ok <- m ;; expectM ok e ;;; f).
Proof.
  intros H1 H2. eapply rep_bind; [exact H1| |].
  - intros ok _. eapply rep_seq with (P := anyv); [rs|intros _ _; exact H2].
  - intros ok _ ->. eapply bad_bind with (P := never) (P' := never); [apply rep_throw|intros ? []].
Qed.
Lemma r_check1 m e : ra anyv failed m -> ra anyv never (ok <- m ;; expectM ok e).
Proof.
  intros H1. eapply rep_bind; [exact H1| |].
  - intros ok _. rs.
  - intros ok _ ->. apply bad_throw.
Qed.
Lemma r_close : ra anyv never (close_sinks E).
Proof.
  unfold close_sinks. ga. eapply rep_seq with (P := anyv); [apply rep_miter; intros; apply r_check1, r_on_slot, r_finalize_sink|intros ? _]. apply r_modA. intros a (X1 & X2 & X3 & X4). repeat split; auto; constructor.
Qed.
Lemma make_buffers_arr a a' : make_buffers a = Ok a' -> arr a -> arr a'.
Proof. unfold make_buffers. destruct (number_of_chunks_in_memory _); try discriminate. destruct (bytes_per_chunk _ _); try discriminate. intros X. injection X as <-. auto. Qed.
Lemma r_flush : ra anyv never (flush E).
Proof.
  unfold flush. ga. destruct (a_toflush v =? 0); [rs|]. eapply rep_seq with (P := anyv); [apply r_compress|intros ? _]. eapply rep_seq with (P := anyv); [apply r_flush_impl|intros ok _]. eapply rep_seq with (P := anyv); [rs|intros ? _]. ga.
  eapply rep_seq with (P := anyv); [rs|intros roll _]. eapply rep_seq with (P := anyv).
  { destruct roll; [|rs]. unfold rollover. eapply rep_seq with (P := anyv); [apply r_close|intros ? _]. same. }
  intros ? _. ga. eapply rep_seq with (P := anyv). { match goal with |- rep _ _ _ _ (if ?b then _ else _) => destruct b end; [|rs]. apply r_check1, r_metadata. }
  intros ? _. ga. eapply rep_seq with (P := arr); [apply rep_lift; intros a' Ha; eapply make_buffers_arr; eauto|intros a' Ha]. apply r_modA. intros a0 _. exact Ha.
Qed.
Lemma r_write_frame d : ra anyv never (write_frame E d).
Proof.
  unfold write_frame. ga. eapply rep_seq with (P := anyv); [rs|intros nf _]. destruct (negb _); [rs|]. eapply rep_seq with (P := anyv).
  { destruct (a_bufs v); [|rs]. eapply rep_seq with (P := arr); [apply rep_lift; intros a' Ha; eapply make_buffers_arr; eauto|intros a' Ha]. apply r_modA. intros a0 _. exact Ha. }
  intros ? _. ga. eapply rep_seq with (P := anyv); [rs|intros [bufs wr] _]. eapply rep_seq with (P := anyv); [same|intros ? _]. eapply rep_seq with (P := anyv); [rs|intros ? _]. eapply rep_seq with (P := anyv); [same|intros ? _]. ga. eapply rep_seq with (P := anyv); [rs|intros sf _].
  eapply rep_seq with (P := anyv); [destruct sf; [apply r_flush|rs]|intros; rs].
Qed.
End Rep.
