(** When a call can block for ever: connections are only lost through refused requests, at most two for each. Sinks and files. *)
Require Import ZArith List Bool String Ascii Lia.
Require Import Verif.Base Verif.Spec Verif.Dim Verif.Radix Verif.Json Verif.World Verif.SinkProofs Verif.LiveSpec.
Import ListNotations.
Open Scope string_scope. Open Scope list_scope. Open Scope Z_scope.

Lemma refused_step E a b : (a <= b)%nat -> refused E a (S b) = (refused E a b + if e_s3 E b then 0 else 1)%nat.
Proof.
  intros H. unfold refused. replace (S b - a)%nat with (S (b - a)) by lia. rewrite seq_S, filter_app, app_length. replace (a + (b - a))%nat with b by lia. cbn.
  destruct (e_s3 E b); cbn; lia.
Qed.

Section Live.
Variables (E : env) (t0 C : nat).
Definition rf (w : world) : nat := refused E t0 (w_tick w).
Definition blocked (w : world) : Prop := (C <= 2 * rf w)%nat.

(** from [P], [m] returns with [Q], or throws with [R], or has undefined behaviour, or blocks when too many requests have been refused *)
Definition lt {S A} (wd : S -> world) (P : S -> Prop) (m : M S A) (Q : A -> S -> Prop) (R : S -> Prop) : Prop :=
  forall s, P s -> match m s with (s', Ok v) => Q v s' | (s', Throw _) => R s' | (_, UB) => True | (s', Hang) => blocked (wd s') end.

Section Rules.
Context {S : Type} (wd : S -> world).
Implicit Types P R : S -> Prop.
Lemma l_ret {A} P (Q : A -> S -> Prop) R a : (forall s, P s -> Q a s) -> lt wd P (ret a) Q R.
Proof. intros H s X. cbn. auto. Qed.
Lemma l_throw {A} P (Q : A -> S -> Prop) R e : (forall s, P s -> R s) -> lt wd P (throwM e) Q R.
Proof. intros H s X. cbn. auto. Qed.
Lemma l_ub {A} P (Q : A -> S -> Prop) R : lt wd P ubM Q R.
Proof. intros s X. exact Logic.I. Qed.
Lemma l_lift {A} P (Q : A -> S -> Prop) R o : o <> Hang -> (forall v s, o = Ok v -> P s -> Q v s) -> (forall s, P s -> R s) -> lt wd P (liftM o) Q R.
Proof. intros N H1 H2 s X. cbn. destruct o; eauto; try congruence. Qed.
Lemma l_bind {A B} P (Q : A -> S -> Prop) (Q' : B -> S -> Prop) R m f : lt wd P m Q R -> (forall a, lt wd (Q a) (f a) Q' R) -> lt wd P (bind m f) Q' R.
Proof. intros H1 H2 s X. specialize (H1 s X). unfold bind. destruct (m s) as [s' [a|e| |]]; auto. apply H2. auto. Qed.
Lemma l_catch {A} P (Q : A -> S -> Prop) R1 R m h : lt wd P m Q R1 -> (forall e, lt wd R1 (h e) Q R) -> lt wd P (catchM m h) Q R.
Proof. intros H1 H2 s X. specialize (H1 s X). unfold catchM. destruct (m s) as [s' [a|e| |]]; auto. apply H2. auto. Qed.
Lemma l_expect P (Q : unit -> S -> Prop) R c e : (forall s, P s -> c = true -> Q tt s) -> (forall s, P s -> c = false -> R s) -> lt wd P (expectM c e) Q R.
Proof. intros H1 H2. destruct c; [apply l_ret|apply l_throw]; auto. Qed.
Lemma l_weak {A} P P' (Q Q' : A -> S -> Prop) R R' m : lt wd P m Q R -> (forall s, P' s -> P s) -> (forall v s, Q v s -> Q' v s) -> (forall s, R s -> R' s) -> lt wd P' m Q' R'.
Proof. intros H a b c s X. specialize (H s (a s X)). destruct (m s) as [s' [v|e| |]]; auto. Qed.
Lemma l_pre {A} P P' (Q : A -> S -> Prop) R m : lt wd P m Q R -> (forall s, P' s -> P s) -> lt wd P' m Q R.
Proof. intros H a. eapply l_weak; eauto. Qed.
Lemma l_post {A} P (Q Q' : A -> S -> Prop) R m : lt wd P m Q R -> (forall v s, Q v s -> Q' v s) -> lt wd P m Q' R.
Proof. intros H a. eapply l_weak; eauto. Qed.
Lemma l_fact {A} (F : Prop) P (Q : A -> S -> Prop) R m : (F -> lt wd P m Q R) -> lt wd (fun s => F /\ P s) m Q R.
Proof. intros H s [a b]. apply H; auto. Qed.
Lemma l_miter {A} P R (f : A -> M S unit) l : (forall a, In a l -> lt wd P (f a) (fun _ => P) R) -> lt wd P (miter f l) (fun _ => P) R.
Proof.
  induction l as [|a l IH]; intros H; cbn; [apply l_ret; auto|]. eapply l_bind; [apply H; left; reflexivity|]. intros []. apply IH. intros; apply H; right; auto.
Qed.
Lemma l_mfold {A B} (I : B -> S -> Prop) R (f : B -> A -> M S B) l : (forall b a, In a l -> lt wd (I b) (f b a) I R) -> forall b, lt wd (I b) (mfold f l b) I R.
Proof.
  induction l as [|a l IH]; intros H b; cbn; [apply l_ret; auto|]. eapply l_bind; [apply H; left; reflexivity|]. intros b'. apply IH. intros; apply H; right; auto.
Qed.
Lemma l_get P (Q : S -> S -> Prop) R : (forall s, P s -> Q s s) -> lt wd P getM Q R.
Proof. intros H s X. cbn. auto. Qed.
Lemma l_mod P (Q : unit -> S -> Prop) R f : (forall s, P s -> Q tt (f s)) -> lt wd P (modM f) Q R.
Proof. intros H s X. cbn. auto. Qed.
End Rules.

(** ** The world *)
Definition idw (w : world) : world := w.
(** [K] connections are there, or the server has refused enough requests *)
Definition G (K : nat) (w : world) : Prop := (t0 <= w_tick w)%nat /\ (K <= w_conns w + 2 * rf w)%nat.
Lemma G_le K K' w : (K' <= K)%nat -> G K w -> G K' w.
Proof. intros H [a b]. split; auto. lia. Qed.

Lemma l_request K : lt idw (G K) (s3_request E) (fun r w => (snd r <> 0) /\ G (if fst r then K else K + 2) w) (fun _ => False).
Proof.
  intros w [a b]. unfold s3_request, bind, next_tick, ret. cbn [fst snd]. split; [lia|]. unfold G, rf. cbn [w_tick w_conns]. rewrite refused_step by exact a. unfold rf in b.
  destruct (e_s3 E (w_tick w)); split; lia.
Qed.
Lemma l_getc K : (C <= K)%nat -> lt idw (G K) get_connection (fun _ => G (K - 1)) (fun _ => False).
Proof.
  intros HK w [a b]. unfold get_connection. destruct (w_conns w) as [|n] eqn:N.
  - cbn. unfold blocked, idw. lia.
  - cbn. split; cbn [w_tick w_conns]; auto. unfold rf in *. cbn [w_tick]. lia.
Qed.
Lemma l_retc K : lt idw (G (K - 1)) return_connection (fun _ => G K) (fun _ => False).
Proof. intros w [a b]. unfold return_connection, modM. split; cbn [w_tick w_conns]; auto. unfold rf in *. cbn [w_tick]. lia. Qed.

(** functions that touch no connection *)
Definition qt {A} (m : M world A) : Prop := forall K, lt idw (G K) m (fun _ => G K) (G K).
Lemma q_ret {A} (a : A) : qt (ret a).
Proof. intros K. apply l_ret. auto. Qed.
Lemma q_throw {A} e : qt (@throwM world A e).
Proof. intros K. apply l_throw. auto. Qed.
Lemma q_expect c e : qt (expectM c e).
Proof. intros K. apply l_expect; auto. Qed.
Lemma q_bind {A B} (m : M world A) (f : A -> M world B) : qt m -> (forall a, qt (f a)) -> qt (bind m f).
Proof. intros H1 H2 K. eapply l_bind; [apply H1|]. intros a. apply H2. Qed.
Lemma q_catch {A} (m : M world A) h : qt m -> (forall e, qt (h e)) -> qt (catchM m h).
Proof. intros H1 H2 K. eapply l_catch; [apply H1|]. intros a. apply H2. Qed.
Lemma q_emit e : qt (emit e).
Proof. intros K w H. exact H. Qed.
Lemma q_err e : qt (set_error e).
Proof. intros K w H. exact H. Qed.
Lemma q_get : qt (@getM world).
Proof. intros K w H. exact H. Qed.
Lemma q_tick : qt next_tick.
Proof. intros K w [a b]. cbn. split; cbn [w_tick w_conns]; [lia|]. unfold rf in *. cbn [w_tick]. rewrite refused_step by exact a. lia. Qed.
Lemma q_lift {A} (o : outcome A) : o <> Hang -> qt (liftM o).
Proof. intros H K. apply l_lift; auto. Qed.
Lemma q_task {A} (m : M world A) : qt m -> qt (in_task m).
Proof. intros H K w X. specialize (H K w X). unfold in_task. destruct (m w) as [w' [v|e| |]]; auto. Qed.
Lemma q_miter {A} (f : A -> M world unit) l : (forall a, qt (f a)) -> qt (miter f l).
Proof. intros H K. apply l_miter. intros a _. apply H. Qed.
Lemma q_mfold {A B} (f : B -> A -> M world B) l b : (forall b a, qt (f b a)) -> qt (mfold f l b).
Proof. intros H K. apply (l_mfold idw (fun _ => G K)). intros b' a _. apply H. Qed.
Lemma q_isdir p : qt (fs_is_directory E p).
Proof. intros K w H. unfold fs_is_directory. destruct (e_stat _ _ _); exact H. Qed.
Lemma q_exists p : qt (fs_exists E p).
Proof. intros K w H. unfold fs_exists. destruct (e_stat _ _ _); exact H. Qed.
End Live.

Ltac qq := repeat first [ apply q_ret | apply q_throw | apply q_expect | apply q_emit | apply q_err | apply q_get | apply q_tick | apply q_isdir | apply q_exists
  | match goal with |- qt _ _ _ (bind _ _) => apply q_bind; [|intros] end
  | match goal with |- qt _ _ _ (catchM _ _) => apply q_catch; [|intros] end
  | match goal with |- qt _ _ _ (in_task _) => apply q_task end
  | match goal with |- qt _ _ _ (mfold _ _ _) => apply q_mfold; intros end
  | match goal with |- qt _ _ _ (miter _ _) => apply q_miter; intros end
  | match goal with |- qt _ _ _ (let '(_, _) := ?p in _) => destruct p end
  | match goal with |- qt _ _ _ (if ?b then _ else _) => destruct b end
  | match goal with |- qt _ _ _ (match ?b with _ => _ end) => destruct b end ].

Section Sinks.
Variables (E : env) (t0 C : nat).
Notation rf := (rf E t0). Notation G := (G E t0). Notation lt := (lt E t0 C). Notation qt := (qt E t0 C).

Lemma q_mkdirs p : qt (fs_create_directories E p).
Proof. unfold fs_create_directories. qq. Qed.
Lemma q_rm p : qt (fs_remove_all E p).
Proof. unfold fs_remove_all. qq. Qed.
Lemma q_file p : qt (file_sink E p).
Proof. unfold file_sink. qq. Qed.
Lemma q_fwrite f off d : qt (file_write E f off d).
Proof. unfold file_write. qq. Qed.
Lemma q_fflush f : qt (file_flush f).
Proof. unfold file_flush. qq. Qed.
Lemma q_fclose f : qt (file_close f).
Proof. unfold file_close. qq. Qed.
Lemma q_destroy s : qt (sink_destroy s).
Proof. unfold sink_destroy. destruct s; [apply q_fclose|apply q_ret]. Qed.
Lemma q_done r : qt (job_done r).
Proof. unfold job_done. qq. Qed.
Lemma q_mdir a d : qt (make_dir_job E a d).
Proof. unfold make_dir_job. qq; try apply q_done. apply q_mkdirs. Qed.
Lemma q_mdirs l : qt (make_dirs E l).
Proof. unfold make_dirs. apply q_mfold. intros. apply q_mdir. Qed.
Lemma q_paths base ds parts b : (forall d, parts d <> Hang) -> qt (make_data_sink_paths E base ds parts b).
Proof. intros H. unfold make_data_sink_paths. qq; try apply q_mdirs; apply q_lift; apply H. Qed.

(** ** The S3 sinks *)
(** the connection that closing this sink may cost *)
Definition cr (s : s3sink) : nat := match s_mp s with Some (id, parts) => if (id =? 0) || (zlen parts =? 0) then 1%nat else 0%nat | None => 0%nat end.
Definition vs (s : s3sink) : Prop := (s_bucket s <> "" /\ s_key s <> "") /\ 0 <= s_nbuf s <= zlen (s_buf s) /\ 0 <= s_nflush s.
Definition I (K : nat) (sw : SW) : Prop := vs (fst sw) /\ G (K + cr (fst sw)) (snd sw).
Notation lw := (lt idw).
Notation ls := (lt (fun sw : SW => snd sw)).

Lemma l_onW {A} (P : s3sink -> world -> Prop) (m : M world A) (Q : s3sink -> A -> world -> Prop) (R : s3sink -> world -> Prop) :
  (forall s, lw (P s) m (Q s) (R s)) -> ls (fun sw => P (fst sw) (snd sw)) (onW m) (fun v sw => Q (fst sw) v (snd sw)) (fun sw => R (fst sw) (snd sw)).
Proof. intros H [s w] X. cbn in X. specialize (H s w X). cbn. destruct (m w) as [w' [v|e| |]]; cbn; auto. Qed.
Lemma l_getS {A} P (f : s3sink -> M SW A) Q R : (forall s, ls (fun sw => P sw /\ fst sw = s) (f s) Q R) -> ls P (s <- getS ;; f s) Q R.
Proof. intros H [s w] X. unfold bind, getS. cbn [fst]. apply H. auto. Qed.

Lemma eqb_ne a : a <> "" -> negb (String.eqb a "") = true.
Proof. intros H. destruct (String.eqb_spec a ""); auto; contradiction. Qed.

(** a sink whose upload has just been started *)
Definition started (s : s3sink) : Prop := exists id, id <> 0 /\ s_mp s = Some (id, []).
Lemma l_create K : (C <= K)%nat -> ls (fun sw => vs (fst sw) /\ G K (snd sw)) (s3_create_upload E)
  (fun _ sw => (vs (fst sw) /\ started (fst sw) /\ 0 < K + 1)%nat /\ G K (snd sw)) (I K).
Proof.
  intros HK [s w] [V g]. cbn [fst snd] in *. unfold s3_create_upload. unfold bind at 1, getS. cbn [fst]. unfold bind at 1, putS. cbn [fst snd].
  set (s1 := mks3 (s_bucket s) (s_key s) (s_buf s) (s_nbuf s) (s_nflush s) (Some (0, []))).
  assert (V1 : vs s1) by exact V. destruct V as [[V2 V3] V4].
  assert (T : lw (G K) (get_connection ;;; s3_create_multipart E (s_bucket s) (s_key s)) (fun id w => id <> 0 /\ G (K - 1) w) (G (K + 1))).
  { apply l_bind with (Q := fun _ => G (K - 1)%nat); [eapply l_weak; [apply (l_getc E t0 C K HK)|auto|intros v x H; exact H|intros ? []]|]. intros _. unfold s3_create_multipart. rewrite (eqb_ne _ V2), (eqb_ne _ V3).
    apply l_bind with (Q := fun _ => G (K - 1)); [apply l_ret; auto|]. intros _. apply l_bind with (Q := fun _ => G (K - 1)); [apply l_ret; auto|]. intros _.
    eapply l_bind; [eapply l_weak; [apply (l_request E t0 C (K - 1))|auto|intros v x H; exact H|intros ? []]|]. intros [ok id]. cbn [fst snd]. apply l_fact. intros Hid.
    apply l_bind with (Q := fun _ => G (K - 1)); [apply l_expect|].
    { intros x X ->. exact X. } { intros x X ->. eapply G_le; [|exact X]. lia. }
    intros _. apply l_bind with (Q := fun _ => G (K - 1)); [intros x X; exact X|intros _; apply l_ret; auto]. }
  specialize (T w g). unfold bind at 1, onW. unfold bind in T. destruct (get_connection w) as [w1 [[]|e| |]] eqn:G1; auto.
  - unfold bind at 1. destruct (s3_create_multipart E (s_bucket s) (s_key s) w1) as [w2 [id|e| |]]; auto.
    + unfold bind, putS. destruct T as [T1 T2]. cbn [fst snd]. pose proof (l_retc E t0 C K w2 T2) as T3. destruct (return_connection w2) as [w3 [[]|e| |]]; auto; [|contradiction].
      cbn [fst snd]. repeat match goal with |- _ /\ _ => split end; auto; try (cbn; auto; fail); try lia; try apply T3; try (exists id; auto).
    + split; auto.
  - unfold get_connection in G1. destruct (w_conns w); discriminate.
Qed.

Lemma slice_len_pos s : vs s -> s_nbuf s <> 0 -> (zlen (slice (s_buf s) 0 (s_nbuf s)) =? 0) = false.
Proof. intros (_ & V & _) N. apply Z.eqb_neq. rewrite slice_length by lia. exact N. Qed.

Lemma l_part K : (C <= K)%nat -> ls (I K) (s3_flush_part E) (fun v sw => I K sw /\ (v = true -> s_nbuf (fst sw) = 0)) (I K).
Proof.
  intros HK. unfold s3_flush_part. apply l_getS. intros s0. destruct (s_nbuf s0 =? 0) eqn:N0.
  { apply l_ret. intros sw [H _]. split; [exact H|discriminate]. }
  apply Z.eqb_neq in N0.
  apply l_bind with (Q := fun _ sw => (vs (fst sw) /\ s_nbuf (fst sw) <> 0 /\ exists id parts, s_mp (fst sw) = Some (id, parts)) /\
                                        (G K (snd sw) /\ (started (fst sw) \/ I K sw))).
  { destruct (s_mp s0) as [[id parts]|] eqn:Mp.
    - apply l_ret. intros [s w] [[V g] X]. cbn in X. subst s. cbn [fst snd] in *. split; [split; [auto|split; [auto|eauto]]|]. split; [eapply G_le; [|exact g]; lia|]. right. split; auto.
    - intros [s w] [[V g] X]. cbn in X. subst s. cbn [fst snd] in *.
      assert (c0 : cr s0 = 0%nat) by (unfold cr; rewrite Mp; reflexivity). rewrite c0, Nat.add_0_r in g.
      pose proof (l_create K HK (s0, w) (conj V g)) as T.
      assert (NB : forall s' w' r, s3_create_upload E (s0, w) = ((s', w'), Ok r) -> s_nbuf s' = s_nbuf s0).
      { intros s' w' r. unfold s3_create_upload, bind, getS, putS, onW. cbn [fst snd]. destruct (get_connection w) as [? [?|?| |]]; try discriminate.
        match goal with |- context [s3_create_multipart E ?b ?k ?x] => destruct (s3_create_multipart E b k x) as [? [?|?| |]]; try discriminate end.
        match goal with |- context [return_connection ?x] => destruct (return_connection x) as [? [?|?| |]]; try discriminate end. intros X. injection X as <- <- <-. reflexivity. }
      destruct (s3_create_upload E (s0, w)) as [[s1 w1] [u|e| |]]; auto. cbn [fst snd] in *. destruct T as ((T1 & T2 & _) & T3). specialize (NB _ _ _ eq_refl).
      split; [split; [auto|split; [rewrite NB; auto|destruct T2 as (id & _ & T2); eauto]]|]. split; auto. }
  intros _ [s w] [(V & Ns & id & parts & Mp) [g St]]. cbn [fst snd] in *. unfold bind at 1, onW at 1.
  pose proof (l_getc E t0 C K HK w g) as T1. destruct (get_connection w) as [w1 [[]|e| |]] eqn:G1; auto; [|contradiction].
  unfold bind at 1, getS. cbn [fst snd]. rewrite Mp. cbn zeta.
  (* what the held connection leaves *)
  assert (Held : started s /\ G (K - 1) w1 \/ ~ started s /\ G (K + cr s - 1) w1).
  { unfold get_connection in G1. destruct (w_conns w) as [|n] eqn:Nw; [discriminate|]. injection G1 as <-.
    destruct St as [St|[_ St]]; [left; split; auto|]. assert (D : started s \/ ~ started s).
    { unfold started. rewrite Mp. destruct (Z.eq_dec id 0) as [->|Ni]; [right; intros (i & a & b); injection b; congruence|]. destruct parts; [left; eauto|right; intros (i & a & b); discriminate]. }
    destruct D as [D|D]; [left; auto|right; split; auto]. destruct St as [a b]. cbn [fst snd] in a, b. rewrite Nw in b. split; auto. unfold LiveProofs.rf in *. cbn [w_tick w_conns] in *. lia. }
  clear T1 St.
  set (up := catchM (s3_upload_part E (s_bucket s) (s_key s) id (zlen parts + 1) (slice (s_buf s) 0 (s_nbuf s))) (fun _ => ret false)).
  assert (U : forall J, lw (G J) up (fun ok => G (if ok then J else J + 2)) (fun _ => False)).
  { intros J. unfold up. eapply l_catch with (R1 := fun _ => False); [|intros e x []]. destruct V as [[V1 V2] V3]. unfold s3_upload_part. rewrite (eqb_ne _ V1), (eqb_ne _ V2).
    rewrite (slice_len_pos s (conj (conj V1 V2) V3) Ns). replace (negb (zlen parts + 1 =? 0)) with true by (symmetry; apply negb_true_iff, Z.eqb_neq; unfold zlen; lia).
    do 4 (apply l_bind with (Q := fun _ => G J); [apply l_ret; auto|intros _]).
    eapply l_bind; [apply (l_request E t0 C J)|]. intros [ok i]. cbn [fst snd]. apply l_fact. intros _. destruct ok; [|apply l_ret; auto].
    apply l_bind with (Q := fun _ => G J); [intros x X; exact X|]. intros _. apply l_ret. auto. }
  unfold bind at 1, onW at 1.
  assert (Fin : forall ok w2, up w1 = (w2, Ok ok) ->
    let s' := mks3 (s_bucket s) (s_key s) (s_buf s) 0 (u64 (s_nflush s + s_nbuf s)) (Some (id, if ok then parts ++ [zlen parts + 1] else parts)) in
    vs s' /\ G (K + cr s' - 1) w2).
  { intros ok w2 Eu s'. split.
    - destruct V as [V1 [V2 V3]]. split; [exact V1|]. subst s'. cbn. unfold u64. split; [lia|]. apply Z.mod_pos_bound. lia.
    - assert (cp : forall l, (zlen (l ++ [zlen parts + 1]) =? 0) = false). { intros l. apply Z.eqb_neq. unfold zlen. rewrite app_length. cbn. lia. }
      destruct Held as [[Hs Hg]|[Hs Hg]].
      + destruct Hs as (i & Hi & Hm). rewrite Mp in Hm. injection Hm as -> ->. pose proof (U _ w1 Hg) as T. rewrite Eu in T. destruct ok; eapply G_le; try exact T; subst s'; unfold cr; cbn [s_mp].
        * rewrite cp, orb_false_r. rewrite (proj2 (Z.eqb_neq i 0) Hi). lia.
        * rewrite (proj2 (Z.eqb_neq i 0) Hi). change (zlen (@nil Z) =? 0) with true. cbn [orb]. lia.
      + pose proof (U _ w1 Hg) as T. rewrite Eu in T. assert (ci : cr s = if (id =? 0) || (zlen parts =? 0) then 1%nat else 0%nat) by (unfold cr; rewrite Mp; reflexivity).
        destruct ok; eapply G_le; try exact T; rewrite ci; subst s'; unfold cr; cbn [s_mp]; rewrite ?cp, ?orb_false_r; destruct (id =? 0); cbn [orb]; try destruct (zlen parts =? 0); lia. }
  assert (Uo : match up w1 with (_, Ok _) => True | _ => False end).
  { clear. unfold up, catchM, s3_upload_part, expectM, s3_request, next_tick, emit, modM, bind, ret, throwM. cbv beta iota.
    repeat match goal with |- context [if ?b then _ else _] => destruct b; cbv beta iota end; exact Logic.I. }
  destruct (up w1) as [w2 [ok|e| |]]; try contradiction. destruct (Fin ok w2 eq_refl) as [F1 F2].
  unfold bind, putS, onW, ret. cbn [fst snd]. pose proof (l_retc E t0 C _ w2 F2) as T. destruct (return_connection w2) as [w3 [[]|e| |]] eqn:Rw; try contradiction; try (unfold return_connection, modM in Rw; discriminate).
  cbn [fst snd]. split; [split; [exact F1|exact T]|reflexivity].
Qed.

Lemma l_put K : (C <= K)%nat -> ls (I K) (s3_put_object E) (fun _ => I K) (I K).
Proof.
  intros HK. unfold s3_put_object. apply l_getS. intros s0. destruct (s_nbuf s0 =? 0) eqn:N0.
  { apply l_ret. intros sw [H _]. exact H. }
  intros [s w] [[V g] X]. cbn in X. subst s. cbn [fst snd] in *. unfold bind at 1, onW at 1.
  pose proof (l_getc E t0 C (K + cr s0) ltac:(lia) w g) as T1. destruct (get_connection w) as [w1 [[]|e| |]]; auto; [|contradiction].
  unfold bind at 1, onW at 1. 
  match goal with |- context [catchM ?a ?b w1] => set (up := catchM a b) end.
  assert (U : forall J, lw (G J) up (fun ok => G J) (fun _ => False)).
  { intros J. unfold up. eapply l_catch with (R1 := G J); [|intros e; apply l_ret; auto]. unfold s3_put.
    do 3 (apply l_bind with (Q := fun _ => G J); [apply l_expect; auto|intros _]).
    eapply l_bind; [eapply l_weak; [apply (l_request E t0 C J)|auto|intros v x H; exact H|intros ? []]|]. intros [ok i]. cbn [fst snd]. apply l_fact. intros _. destruct ok; [|apply l_ret; intros x X; eapply G_le; [|exact X]; lia].
    apply l_bind with (Q := fun _ => G J); [intros x X; exact X|]. intros _. apply l_ret. auto. }
  pose proof (U _ w1 T1) as T2. destruct (up w1) as [w2 [ok|e| |]]; auto; [|contradiction].
  pose proof (l_retc E t0 C _ w2 T2) as T. unfold bind, putS, onW, ret. destruct ok; cbn [fst snd]; destruct (return_connection w2) as [w3 [[]|e| |]]; auto; try contradiction.
  - split; [|exact T]. cbn [fst]. destruct V as [V1 [V2 V3]]. split; [exact V1|]. cbn. lia.
  - split; [exact V|exact T].
Qed.

Lemma l_complete K : (C <= K)%nat -> ls (I K) (s3_finalize E) (fun _ sw => G K (snd sw)) (fun sw => G K (snd sw)).
Proof.
  intros HK [s w] [V g]. cbn [fst snd] in *. unfold s3_finalize. unfold bind at 1, onW at 1.
  pose proof (l_getc E t0 C (K + cr s) ltac:(lia) w g) as T1. destruct (get_connection w) as [w1 [[]|e| |]]; auto; [|contradiction].
  unfold bind at 1, getS. cbn [fst snd]. destruct (s_mp s) as [[id parts]|] eqn:Mp; [|exact Logic.I].
  unfold bind at 1, onW at 1. destruct V as [[V1 V2] V3]. unfold s3_complete. rewrite (eqb_ne _ V1), (eqb_ne _ V2).
  unfold cr in T1. rewrite Mp in T1. destruct (id =? 0) eqn:Ni.
  { cbn in T1 |- *. eapply G_le; [|exact T1]. lia. }
  destruct (zlen parts =? 0) eqn:Np.
  { cbn in T1 |- *. eapply G_le; [|exact T1]. lia. }
  cbn [negb orb expectM] in *. unfold expectM. 
  assert (U : lw (G (K - 1)) ('(ok, _) <- s3_request E;; (if ok then emit (EMpComplete (s_bucket s) (s_key s) id parts);;; ret true else ret false)) (fun _ => G (K - 1)) (fun _ => False)).
  { eapply l_bind; [apply (l_request E t0 C (K - 1))|]. intros [ok i]. cbn [fst snd]. apply l_fact. intros _. destruct ok; [|apply l_ret; intros x X; eapply G_le; [|exact X]; lia].
    apply l_bind with (Q := fun _ => G (K - 1)); [intros x X; exact X|]. intros _. apply l_ret. auto. }
  specialize (U w1 ltac:(eapply G_le; [|exact T1]; lia)). 
  match goal with |- context [bind ?a ?b w1] => change (bind a b w1) with (('(ok, _) <- s3_request E;; (if ok then emit (EMpComplete (s_bucket s) (s_key s) id parts);;; ret true else ret false)) w1) end.
  match goal with |- context [bind ?a ?b w1] => destruct (bind a b w1) as [w2 [ok|e| |]] end; auto; [|contradiction].
  pose proof (l_retc E t0 C K w2 U) as T. unfold bind, onW, ret. destruct (return_connection w2) as [w3 [[]|e| |]]; auto; contradiction.
Qed.

Lemma I_G K sw : I K sw -> G K (snd sw).
Proof. intros [_ g]. eapply G_le; [|exact g]. lia. Qed.
Lemma l_flush K : (C <= K)%nat -> ls (I K) (s3_flush E) (fun _ sw => G K (snd sw)) (fun sw => G K (snd sw)).
Proof.
  intros HK. unfold s3_flush. apply l_getS. intros s. apply l_bind with (Q := fun _ sw => G K (snd sw)).
  - destruct (s_mp s) as [p|].
    + apply l_bind with (Q := fun _ => I K).
      * destruct (0 <? s_nbuf s); [eapply l_weak; [apply (l_part K HK)|intros x X; exact (proj1 X)|intros v x X; exact (proj1 X)|intros x X; apply I_G; exact X]|apply l_ret; intros x X; exact (proj1 X)].
      * intros [|]; [apply l_complete; exact HK|apply l_ret; intros x X; apply I_G; exact X].
    + destruct (0 <? s_nbuf s); [eapply l_weak; [apply (l_put K HK)|intros x X; exact (proj1 X)|intros v x X; apply I_G; exact X|intros x X; apply I_G; exact X]|apply l_ret; intros x X; apply I_G; exact (proj1 X)].
  - intros [|]; [|apply l_ret; auto]. intros [s' w'] X. exact X.
Qed.

Lemma l_loop K : (C <= K)%nat -> forall fuel data, ls (fun sw => I K sw /\ (2 * List.length data + (if (s_nbuf (fst sw) =? part_size)%Z then 1 else 0) < fuel)%nat) (s3_write_loop E fuel data) (fun _ => I K) (I K).
Proof.
  intros HK. induction fuel as [|f IH]; intros data. { intros sw [_ X]. lia. }
  cbn [s3_write_loop]. destruct (zlen data =? 0) eqn:Z0. { apply l_ret. intros x X; exact (proj1 X). }
  apply Z.eqb_neq in Z0. assert (LD : (0 < List.length data)%nat) by (unfold zlen in Z0; lia).
  apply l_getS. intros s. destruct (part_size <? s_nbuf s) eqn:Z1; [apply l_ub|]. apply Z.ltb_ge in Z1.
  cbn zeta. set (n := Z.min (zlen data) (part_size - s_nbuf s)).
  set (s1 := mks3 (s_bucket s) (s_key s) (write_at (s_buf s) (s_nbuf s) (firstn (Z.to_nat n) data)) (s_nbuf s + n) (s_nflush s) (s_mp s)).
  apply l_bind with (Q := fun _ sw => fst sw = s1 /\ (0 <= s_nbuf s) /\ (2 * List.length data + (if (s_nbuf s =? part_size)%Z then 1 else 0) < S f)%nat /\ I K sw).
  { intros [s' w] [[[V g] X] Y]. cbn in Y. subst s'. cbn [fst snd] in *. unfold putS. cbn [fst snd]. split; [reflexivity|]. destruct V as [V1 [V2 V3]]. split; [lia|]. split; [exact X|]. split; [|exact g]. split; [exact V1|].
    subst s1. cbn [fst s_nbuf s_buf s_nflush]. assert (0 <= n <= zlen data) by (unfold n, zlen in *; lia). pose proof (write_at_len (s_buf s) (s_nbuf s) (firstn (Z.to_nat n) data) V2) as WL. unfold zlen in *. rewrite firstn_length in WL. lia. }
  intros []. apply l_bind with (Q := fun ok sw => I K sw /\ (ok = true -> (2 * List.length (skipn (Z.to_nat n) data) + (if (s_nbuf (fst sw) =? part_size)%Z then 1 else 0) < f)%nat)).
  - assert (Sk : List.length (skipn (Z.to_nat n) data) = (List.length data - Z.to_nat n)%nat) by apply skipn_length. rewrite Sk.
    assert (PS : 0 < part_size) by reflexivity.
    destruct (s_nbuf s + n =? part_size) eqn:Z2.
    + apply Z.eqb_eq in Z2. intros sw (X1 & X2 & X3 & X4). pose proof (l_part K HK sw X4) as T. destruct (s3_flush_part E sw) as [sw' [ok|e| |]]; auto. destruct T as [T1 T2]. split; [exact T1|]. intros O. rewrite (T2 O).
      change (0 =? part_size) with false. destruct (s_nbuf s =? part_size) eqn:Z3; [lia|]. apply Z.eqb_neq in Z3. unfold n, zlen in *. lia.
    + apply l_ret. intros sw (X1 & X2 & X3 & X4). split; [exact X4|]. intros _. rewrite X1. cbn [s1 s_nbuf]. rewrite Z2. apply Z.eqb_neq in Z2.
      destruct (s_nbuf s =? part_size) eqn:Z3; [apply Z.eqb_eq in Z3; unfold n, zlen in *; lia|]. apply Z.eqb_neq in Z3. unfold n, zlen in *. lia.
  - intros [|]; [|apply l_ret; intros x X; exact (proj1 X)]. eapply l_pre; [apply IH|]. intros x [X1 X2]. split; [exact X1|exact (X2 eq_refl)].
Qed.

(** writing at the start of an object, the only offset that Zarr V2 uses *)
Lemma l_write K data : (C <= K)%nat -> ls (I K) (s3_write E 0 data) (fun _ => I K) (I K).
Proof.
  intros HK. unfold s3_write. destruct (zlen data =? 0); [apply l_ret; auto|]. apply l_getS. intros s. destruct (0 <? s_nflush s) eqn:N; [apply l_ret; intros x X; exact (proj1 X)|].
  apply Z.ltb_ge in N. apply l_bind with (Q := fun _ sw => I K sw /\ s_nbuf (fst sw) = 0).
  - intros [s' w] [[V g] Y]. cbn in Y. subst s'. cbn [fst snd] in *. unfold putS. destruct V as [V1 [V2 V3]]. assert (s_nflush s = 0) by lia. rewrite H. split; [|reflexivity]. split; [|exact g].
    split; [exact V1|]. cbn [fst s_nbuf s_buf s_nflush]. lia.
  - intros []. eapply l_pre; [apply l_loop; exact HK|]. intros x [X1 X2]. split; [exact X1|]. rewrite X2. change (0 =? part_size) with false. cbv iota. lia.
Qed.

(** ** Sinks and slots *)
Definition vk (k : sink) : Prop := match k with SFile _ => True | SS3 s => vs s end.
Definition ck (k : sink) : nat := match k with SFile _ => 0%nat | SS3 s => cr s end.
Definition Kk (K : nat) (kw : KW) : Prop := vk (fst kw) /\ G (K + ck (fst kw)) (snd kw).
Definition vo (o : option sink) : Prop := match o with Some k => vk k | None => True end.
Definition co (o : option sink) : nat := match o with Some k => ck k | None => 0%nat end.
Lemma k_write K data : (C <= K)%nat -> lt (fun kw : KW => snd kw) (Kk K) (sink_write E 0 data) (fun _ => Kk K) (Kk K).
Proof.
  intros HK [[f|s] w] [V g]; cbn [fst snd ck vk] in *; unfold sink_write; cbn [fst].
  - unfold runF. cbn [snd]. pose proof (q_fwrite f 0 data (K + 0)%nat w g) as T. destruct (file_write E f 0 data w) as [w' [v|e| |]]; cbn [fst snd]; auto; split; auto.
  - unfold runS. cbn [snd]. pose proof (l_write K data HK (s, w) (conj V g)) as T. destruct (s3_write E 0 data (s, w)) as [[s' w'] [v|e| |]]; auto.
Qed.
Lemma k_flush K : (C <= K)%nat -> lt (fun kw : KW => snd kw) (Kk K) (sink_flush E) (fun _ kw => G K (snd kw)) (fun kw => G K (snd kw)).
Proof.
  intros HK [[f|s] w] [V g]; cbn [fst snd ck vk] in *; unfold sink_flush; cbn [fst].
  - unfold runF. cbn [snd]. rewrite Nat.add_0_r in g. pose proof (q_fflush f K w g) as T. destruct (file_flush f w) as [w' [v|e| |]]; cbn [fst snd]; auto.
  - unfold runS. cbn [snd]. pose proof (l_flush K HK (s, w) (conj V g)) as T. destruct (s3_flush E (s, w)) as [[s' w'] [v|e| |]]; auto.
Qed.
Definition Oo (K : nat) (ow : option sink * world) : Prop := vo (fst ow) /\ G (K + co (fst ow)) (snd ow).
Lemma o_finalize K : (C <= K)%nat -> lt (fun ow : option sink * world => snd ow) (Oo K) (finalize_sink E) (fun _ ow => G K (snd ow)) (fun ow => G K (snd ow)).
Proof.
  intros HK [[k|] w] [V g]; cbn [fst snd co vo] in *; unfold finalize_sink.
  - pose proof (k_flush K HK (k, w) (conj V g)) as T. destruct (sink_flush E (k, w)) as [[k' w'] [[|]|e| |]]; auto. pose proof (q_destroy k' K w' T) as D. destruct (sink_destroy k' w') as [w'' r] eqn:Dw.
    assert (X : exists u, r = Ok u). { unfold sink_destroy in Dw. destruct k' as [f|s]; [|injection Dw; eauto]. unfold file_close in Dw. destruct (f_open f); injection Dw; eauto. }
    destruct X as [u ->]. exact D.
  - rewrite Nat.add_0_r in g. exact g.
Qed.

(** *** Making sinks *)
Definition fresh_o (o : option sink) : Prop := vo o /\ co o = 0%nat.
Lemma fresh_s3 K b k : lw (G K) (s3_sink b k) (fun s w => fresh_o (Some (SS3 s)) /\ G K w) (G K).
Proof.
  unfold s3_sink. apply l_bind with (Q := fun _ w => b <> "" /\ G K w); [apply l_expect; auto; intros x X Y; split; auto; intros ->; discriminate|]. intros _. apply l_fact. intros Hb.
  apply l_bind with (Q := fun _ w => k <> "" /\ G K w); [apply l_expect; auto; intros x X Y; split; auto; intros ->; discriminate|]. intros _. apply l_fact. intros Hk.
  apply l_ret. intros x X. split; [|exact X]. split; [|reflexivity]. split; [auto|]. cbn [s_nbuf s_buf s_nflush]. change (zlen (@nil Z)) with 0. lia.
Qed.
Lemma l_bucket K b : (C <= K)%nat -> lw (G K) (bucket_exists E b) (fun _ => G K) (G K).
Proof.
  intros HK. unfold bucket_exists. apply l_bind with (Q := fun _ => G K); [apply l_expect; auto|]. intros _.
  apply l_bind with (Q := fun _ => G (K - 1)%nat); [eapply l_weak; [apply (l_getc E t0 C K HK)|auto|intros v x H; exact H|intros ? []]|]. intros _.
  eapply l_bind; [eapply l_weak; [apply (l_request E t0 C (K - 1))|auto|intros v x H; exact H|intros ? []]|]. intros [ok id]. cbn [fst snd]. apply l_fact. intros _.
  apply l_bind with (Q := fun _ => G K); [|intros _; apply l_ret; auto]. eapply l_weak; [apply (l_retc E t0 C K)|intros x X; eapply G_le; [|exact X]; destruct ok; lia|auto|intros ? []].
Qed.
Lemma l_make_s3 K b k : (C <= K)%nat -> lw (G K) (make_sink_s3 E b k) (fun o w => (forall x, o = Some x -> fresh_o o) /\ G K w) (G K).
Proof.
  intros HK. unfold make_sink_s3. do 2 (apply l_bind with (Q := fun _ => G K); [apply l_expect; auto|intros _]).
  eapply l_bind; [apply l_bucket; exact HK|]. intros [|]; [|apply l_ret; intros x X; split; [discriminate|exact X]].
  eapply l_bind; [apply fresh_s3|]. intros s. apply l_fact. intros F. apply l_ret. auto.
Qed.
Lemma l_make_fs K p : lw (G K) (make_sink_fs E p) (fun o w => (forall x, o = Some x -> fresh_o o) /\ G K w) (G K).
Proof.
  unfold make_sink_fs. apply l_bind with (Q := fun _ => G K); [apply l_expect; auto|]. intros _. eapply l_bind; [apply q_isdir|]. intros d. eapply l_bind with (Q := fun _ => G K); [destruct d; [apply q_ret|apply q_mkdirs]|].
  intros [|]; [|apply l_ret; intros x X; split; [discriminate|exact X]]. eapply l_bind; [apply q_file|]. intros f. apply l_ret. intros x X. split; [|exact X]. intros y _. split; [exact Logic.I|reflexivity].
Qed.
Lemma l_data_s3 K b base ds parts : (forall d, parts d <> Hang) -> lw (G K) (make_data_sinks_s3 E b base ds parts) (fun o w => (forall l, o = Some l -> Forall fresh_o l) /\ G K w) (G K).
Proof.
  intros H. unfold make_data_sinks_s3. apply l_bind with (Q := fun _ => G K); [apply l_expect; auto|]. intros _. eapply l_bind; [apply q_paths; exact H|]. intros ps.
  destruct (String.eqb b ""); [apply l_ret; intros x X; split; [discriminate|exact X]|].
  apply l_bind with (Q := fun l w => Forall fresh_o l /\ G K w).
  - eapply l_pre; [apply (l_mfold E t0 C idw (fun l w => Forall fresh_o l /\ G K w))|intros x X; split; [constructor|exact X]]. intros l k _. apply l_fact. intros F.
    eapply l_bind; [apply fresh_s3|]. intros s. apply l_fact. intros Fs. apply l_ret. intros x X. split; [apply Forall_app; split; auto|exact X].
  - intros l. apply l_fact. intros F. apply l_ret. intros x X. split; [|exact X]. intros l' Y. injection Y as <-. exact F.
Qed.
Lemma l_data_fs K base ds parts : (forall d, parts d <> Hang) -> lw (G K) (make_data_sinks_fs E base ds parts) (fun o w => (forall l, o = Some l -> Forall fresh_o l) /\ G K w) (G K).
Proof.
  intros H. unfold make_data_sinks_fs. cbn zeta. apply l_bind with (Q := fun _ => G K); [apply l_expect; auto|]. intros _.
  eapply l_bind with (Q := fun _ => G K); [apply q_catch; [apply q_bind; [apply q_paths; exact H|intros; apply q_ret]|intros; apply q_ret]|]. intros [ps|]; [|apply l_ret; intros x X; split; [discriminate|exact X]].
  apply l_bind with (Q := fun l w => Forall fresh_o l /\ G K w).
  - unfold make_files. eapply l_pre; [apply (l_mfold E t0 C idw (fun l w => Forall fresh_o l /\ G K w))|intros x X; split; [constructor|exact X]]. intros l k _. apply l_fact. intros F.
    eapply l_bind; [apply q_file|]. intros f. apply l_bind with (Q := fun _ => G K); [apply q_done|]. intros _. apply l_ret. intros x X. split; [apply Forall_app; split; auto; constructor; [split; [exact Logic.I|reflexivity]|constructor]|exact X].
  - intros l. apply l_fact. intros F. apply l_ret. intros x X. split; [|exact X]. intros l' Y. injection Y as <-. exact F.
Qed.
Lemma l_metas_s3 K v b base : (C <= K)%nat -> lw (G K) (make_metadata_sinks_s3 E v b base) (fun o w => (forall l, o = Some l -> Forall (fun ks => fresh_o (snd ks)) l) /\ G K w) (G K).
Proof.
  intros HK. unfold make_metadata_sinks_s3. do 2 (apply l_bind with (Q := fun _ => G K); [apply l_expect; auto|intros _]).
  eapply l_bind; [apply l_bucket; exact HK|]. intros [|]; [|apply l_ret; intros x X; split; [discriminate|exact X]].
  eapply l_bind; [apply q_lift; unfold metadata_paths; destruct (v =? 2), (v =? 3); discriminate|]. intros names.
  apply l_bind with (Q := fun l w => Forall (fun ks => fresh_o (snd ks)) l /\ G K w).
  - eapply l_pre; [apply (l_mfold E t0 C idw (fun (l : list (string * option sink)) w => Forall (fun ks => fresh_o (snd ks)) l /\ G K w))|intros x X; split; [constructor|exact X]]. intros l k _. apply l_fact. intros F.
    eapply l_bind; [apply fresh_s3|]. intros s. apply l_fact. intros Fs. apply l_ret. intros x X. split; [apply Forall_app; split; auto|exact X].
  - intros l. apply l_fact. intros F. apply l_ret. intros x X. split; [|exact X]. intros l' Y. injection Y as <-. exact F.
Qed.
End Sinks.
