(** The programs of Conn.v do alone what the S3 sinks of World.v do. *)
Require Import ZArith List Bool String Lia.
Require Import Verif.Base Verif.World Verif.S3Spec Verif.Conn Verif.ConnSpec.
Import ListNotations.
Open Scope string_scope.
Open Scope list_scope.
Open Scope Z_scope.

Fixpoint runp {R} (E : env) (p : prog R) (w : world) : world * option R :=
  match p with
  | PRet r => (w, Some r)
  | PGet k => match w_conns w with O => (w, None) | S n => runp E k (mkworld (w_trace w) (w_tick w) n (w_err w)) end
  | PReq es k => runp E (k (e_s3 E (w_tick w))) (mkworld (if e_s3 E (w_tick w) then w_trace w ++ es else w_trace w) (S (w_tick w)) (w_conns w) (w_err w))
  | PNew f k => runp E (k (e_s3 E (w_tick w)) (Z.of_nat (w_tick w) + 1)) (mkworld (if e_s3 E (w_tick w) then w_trace w ++ f (Z.of_nat (w_tick w) + 1) else w_trace w) (S (w_tick w)) (w_conns w) (w_err w))
  | PGive k => runp E k (mkworld (w_trace w) (w_tick w) (S (w_conns w)) (w_err w))
  | PLose k => runp E k w
  end.
Lemma runp_bind {A B} E (p : prog A) (f : A -> prog B) : forall w,
  runp E (pbind p f) w = match runp E p w with (w', Some a) => runp E (f a) w' | (w', None) => (w', None) end.
Proof. induction p as [r|k IH|es k IH|g k IH|k IH|k IH]; intros w; cbn [pbind runp]; auto. destruct (w_conns w); auto. Qed.

Definition simw {A} (m : SW -> SW * outcome A) (x : world * option (s3sink * outcome A)) (sw : SW) : Prop :=
  match x with
  | (w', Some (s', r)) => m sw = ((s', w'), r)
  | (w', None) => exists s', m sw = ((s', w'), Hang)
  end.
Definition sim {A} (E : env) (m : M SW A) (q : SP A) : Prop := forall s w, simw m (runp E (q s) w) (s, w).

Section Sim.
Variable E : env.
Lemma sim_ret {A} (a : A) : sim E (ret a) (sret a). Proof. intros s w. reflexivity. Qed.
Lemma sim_get : sim E getS sget. Proof. intros s w. reflexivity. Qed.
Lemma sim_put s0 : sim E (putS s0) (sput s0). Proof. intros s w. reflexivity. Qed.
Lemma sim_ub {A} : sim E (@ubM SW A) (sout UB). Proof. intros s w. reflexivity. Qed.
Lemma sim_hang {A} : sim E (@hangM SW A) (sout Hang). Proof. intros s w. reflexivity. Qed.
Lemma sim_expect c e : sim E (onW (expectM c e)) (sexpect c e). Proof. intros s w. destruct c; reflexivity. Qed.
Lemma sim_conn : sim E (onW get_connection) sconn.
Proof. intros s w. unfold sconn, onW, get_connection. cbn [runp]. unfold simw. destruct (w_conns w); [|reflexivity]. exists s. reflexivity. Qed.
Lemma sim_give : sim E (onW return_connection) sgive. Proof. intros s w. reflexivity. Qed.
Lemma sim_bind {A B} (m : M SW A) (f : A -> M SW B) q g : sim E m q -> (forall a, sim E (f a) (g a)) -> sim E (bind m f) (sbind q g).
Proof.
  intros H1 H2 s w. unfold sbind, bind. rewrite runp_bind. specialize (H1 s w). unfold simw in H1 |- *. destruct (runp E (q s) w) as [w1 [[s1 r]|]].
  - rewrite H1. destruct r as [a|e| |]; cbn [fst snd runp]; auto. apply H2.
  - destruct H1 as [s1 ->]. eauto.
Qed.
Lemma sim_catch {A} (m : M SW A) h q g : sim E m q -> (forall e, sim E (h e) (g e)) -> sim E (catchM m h) (scatch q g).
Proof.
  intros H1 H2 s w. unfold scatch, catchM. rewrite runp_bind. specialize (H1 s w). unfold simw in H1 |- *. destruct (runp E (q s) w) as [w1 [[s1 r]|]].
  - rewrite H1. destruct r as [a|e| |]; cbn [fst snd runp]; auto. apply H2.
  - destruct H1 as [s1 ->]. eauto.
Qed.
Lemma sim_holding {A} (m : M SW A) q : sim E m q -> sim E m (sholding q).
Proof.
  intros H1 s w. unfold sholding. rewrite runp_bind. specialize (H1 s w). unfold simw in H1 |- *. destruct (runp E (q s) w) as [w1 [[s1 r]|]]; auto.
  destruct r as [a|e| |]; cbn [fst snd runp]; auto.
Qed.
Lemma sim_lose {A} (m : M SW A) q : sim E m q -> sim E m (sbind slose (fun _ => q)).
Proof. intros H s w. exact (H s w). Qed.
Lemma sim_ext {A} (m m' : M SW A) q : (forall x, m x = m' x) -> sim E m q -> sim E m' q.
Proof. intros H S s w. specialize (S s w). unfold simw in *. destruct (runp E (q s) w) as [w1 [[s1 r]|]]; rewrite <- H; exact S. Qed.
Lemma onW_bind {A B} (m : M world A) (f : A -> M world B) x : bind (onW m) (fun a => onW (f a)) x = onW (bind m f) x.
Proof. destruct x as [s w]. unfold bind, onW. destruct (m w) as [w1 [a|e| |]]; reflexivity. Qed.
Lemma onW_catch {A} (m : M world A) (h : string -> M world A) x : catchM (onW m) (fun e => onW (h e)) x = onW (catchM m h) x.
Proof. destruct x as [s w]. unfold catchM, onW. destruct (m w) as [w1 [a|e| |]]; reflexivity. Qed.
Lemma onW_ret {A} (a : A) x : ret a x = onW (ret a) x. Proof. destruct x. reflexivity. Qed.

(** a request whose effect is one event *)
Lemma sim_req e : sim E (onW ('(ok, _) <- s3_request E ;; if ok then emit e ;;; ret true else ret false)) (sreq [e]).
Proof. intros s w. unfold simw, sreq, onW, s3_request, bind, next_tick, ret, emit, modM. cbn [runp]. destruct (e_s3 E (w_tick w)); reflexivity. Qed.
Lemma sim_expects {B} c e (m : M world B) q : sim E (onW m) q -> sim E (onW (expectM c e ;;; m)) (sbind (sexpect c e) (fun _ => q)).
Proof. intros H. eapply sim_ext; [intros x; apply onW_bind|]. apply sim_bind; [apply sim_expect|auto]. Qed.
Lemma put_sim b k d : sim E (onW (s3_put E b k d)) (p_put b k d).
Proof. unfold s3_put, p_put. do 3 apply sim_expects. apply sim_req. Qed.
Lemma upload_part_sim b k id n d : sim E (onW (s3_upload_part E b k id n d)) (p_upload_part b k id n d).
Proof. unfold s3_upload_part, p_upload_part. do 4 apply sim_expects. apply sim_req. Qed.
Lemma complete_sim b k id ps : sim E (onW (s3_complete E b k id ps)) (p_complete b k id ps).
Proof. unfold s3_complete, p_complete. do 4 apply sim_expects. apply sim_req. Qed.
Lemma create_sim b k : sim E (onW (s3_create_multipart E b k)) (p_create_multipart b k).
Proof.
  unfold s3_create_multipart, p_create_multipart. do 2 apply sim_expects. intros s w. unfold simw, snew, sexpect, sout, sret, sbind, onW, s3_request, bind, next_tick, ret, emit, modM, expectM, throwM. cbn [runp pbind fst snd].
  destruct (e_s3 E (w_tick w)); reflexivity.
Qed.
Lemma create_upload_sim : sim E (s3_create_upload E) p_create_upload.
Proof.
  unfold s3_create_upload, p_create_upload. apply sim_bind; [apply sim_get|]. intros s. apply sim_bind; [apply sim_put|]. intros _. apply sim_bind; [apply sim_conn|]. intros _.
  apply sim_bind; [apply sim_holding, create_sim|]. intros id. apply sim_bind; [apply sim_put|]. intros _. apply sim_give.
Qed.
Lemma flush_part_sim : sim E (s3_flush_part E) p_flush_part.
Proof.
  unfold s3_flush_part, p_flush_part. apply sim_bind; [apply sim_get|]. intros s0. destruct (s_nbuf s0 =? 0); [apply sim_ret|].
  apply sim_bind; [destruct (s_mp s0); [apply sim_ret|apply create_upload_sim]|]. intros _. apply sim_bind; [apply sim_conn|]. intros _. apply sim_bind; [apply sim_get|]. intros s.
  destruct (s_mp s) as [[id parts]|]; [|apply sim_lose, sim_ub]. cbv zeta. apply sim_bind; [|intros ok; apply sim_bind; [apply sim_give|intros _; apply sim_bind; [apply sim_put|intros _; apply sim_ret]]].
  eapply sim_ext; [intros x; apply onW_catch|]. apply sim_catch; [apply upload_part_sim|]. intros _. eapply sim_ext; [intros x; apply onW_ret|]. apply sim_ret.
Qed.
Lemma put_object_sim : sim E (s3_put_object E) p_put_object.
Proof.
  unfold s3_put_object, p_put_object. apply sim_bind; [apply sim_get|]. intros s. destruct (s_nbuf s =? 0); [apply sim_ret|].
  apply sim_bind; [apply sim_conn|]. intros _. apply sim_bind; [|intros ok; apply sim_bind; [destruct ok; [apply sim_put|apply sim_ret]|intros _; apply sim_bind; [apply sim_give|intros _; apply sim_ret]]].
  eapply sim_ext; [intros x; apply onW_catch|]. apply sim_catch; [apply put_sim|]. intros _. eapply sim_ext; [intros x; apply onW_ret|]. apply sim_ret.
Qed.
Lemma finalize_sim : sim E (s3_finalize E) p_finalize.
Proof.
  unfold s3_finalize, p_finalize. apply sim_bind; [apply sim_conn|]. intros _. apply sim_bind; [apply sim_get|]. intros s. destruct (s_mp s) as [[id parts]|]; [|apply sim_lose, sim_ub].
  apply sim_bind; [apply sim_holding, complete_sim|]. intros ok. apply sim_bind; [apply sim_give|]. intros _. apply sim_ret.
Qed.
Lemma flush_sim : sim E (s3_flush E) p_flush.
Proof.
  unfold s3_flush, p_flush. apply sim_bind; [apply sim_get|]. intros s. apply sim_bind.
  - destruct (s_mp s); [|destruct (0 <? s_nbuf s); [apply put_object_sim|apply sim_ret]]. apply sim_bind; [destruct (0 <? s_nbuf s); [apply flush_part_sim|apply sim_ret]|]. intros [|]; [apply finalize_sim|apply sim_ret].
  - intros [|]; [|apply sim_ret]. apply sim_bind; [apply sim_get|]. intros s'. apply sim_bind; [apply sim_put|]. intros _. apply sim_ret.
Qed.
Lemma write_loop_sim fuel : forall data, sim E (s3_write_loop E fuel data) (p_write_loop fuel data).
Proof.
  induction fuel as [|f IH]; intros data; cbn [s3_write_loop p_write_loop]; [apply sim_hang|]. destruct (zlen data =? 0); [apply sim_ret|].
  apply sim_bind; [apply sim_get|]. intros s. destruct (part_size <? s_nbuf s); [apply sim_ub|]. cbv zeta. apply sim_bind; [apply sim_put|]. intros _.
  apply sim_bind; [destruct (_ =? part_size); [apply flush_part_sim|apply sim_ret]|]. intros [|]; [apply IH|apply sim_ret].
Qed.
Lemma write_sim off data : sim E (s3_write E off data) (p_write off data).
Proof.
  unfold s3_write, p_write. destruct (zlen data =? 0); [apply sim_ret|]. apply sim_bind; [apply sim_get|]. intros s. destruct (off <? s_nflush s); [apply sim_ret|].
  apply sim_bind; [apply sim_put|]. intros _. apply write_loop_sim.
Qed.
Lemma write_all_sim ds : forall off, sim E (write_all E off ds) (p_write_all off ds).
Proof.
  induction ds as [|d l IH]; intros off; cbn [write_all p_write_all]; [apply sim_ret|]. apply sim_bind; [apply write_sim|]. intros [|]; [apply IH|apply sim_ret].
Qed.
(** a task alone: what the sequential model says *)
Lemma task_runs j w w' r : runp E (p_task j) w = (w', Some r) ->
  match j with
  | TObject b k ds => exists o, object_session E b k ds w = (w', o) /\ r = RObject o
  | TBucket b => exists o, bucket_exists E b w = (w', o) /\ r = RBucket o
  end.
Proof.
  destruct j as [b k ds|b]; cbn [p_task].
  - unfold object_session, s3_sink, expectM. destruct (String.eqb b ""); cbn [negb]; [intros H; injection H as <- <-; eexists; split; reflexivity|].
    destruct (String.eqb k ""); cbn [negb]; [intros H; injection H as <- <-; eexists; split; reflexivity|]. cbv beta iota delta [bind ret].
    assert (S : sim E (a <- write_all E 0 ds ;; f <- s3_flush E ;; ret (a, f)) (sbind (p_write_all 0 ds) (fun a => sbind p_flush (fun f => sret (a, f))))).
    { apply sim_bind; [apply write_all_sim|]. intros a. apply sim_bind; [apply flush_sim|]. intros f. apply sim_ret. }
    specialize (S (mks3 b k [] 0 0 None) w). rewrite runp_bind. unfold simw in S. destruct (runp E _ w) as [w1 [[s1 o]|]]; [|discriminate]. cbn [runp snd]. intros H. injection H as <- <-.
    unfold bind, ret in S. rewrite S. eexists. split; reflexivity.
  - unfold bucket_exists, expectM. destruct (String.eqb b ""); cbn [negb]; [intros H; injection H as <- <-; eexists; split; reflexivity|]. cbn [runp]. unfold bind, ret, get_connection, s3_request, next_tick, return_connection, modM.
    destruct w as [tr tk [|n] er]; cbn [w_conns w_trace w_tick w_err]; [discriminate|]. cbn [fst]. intros H. exists (Ok (e_s3 E tk)). injection H as <- <-. split; [|reflexivity]. unfold bind, ret. cbn [w_conns w_trace w_tick w_err fst snd]. destruct (e_s3 E tk); [rewrite app_nil_r|]; reflexivity.
Qed.
End Sim.

(** *** the shape of the programs *)
(** [sane P d h p]: at most [d] actions are left, whatever the answers; each connection that is got is given back or destroyed before another
    one is asked for ([h]: one has been got); everything stored satisfies [P] *)
Inductive sane {R} (P : event -> Prop) : nat -> bool -> prog R -> Prop :=
| sn_ret d r : sane P d false (PRet r)
| sn_get d k : sane P d true k -> sane P (S d) false (PGet k)
| sn_req d es k : Forall P es -> (forall ok, sane P d true (k ok)) -> sane P (S d) true (PReq es k)
| sn_new d f k : (forall id, Forall P (f id)) -> (forall ok id, sane P d true (k ok id)) -> sane P (S d) true (PNew f k)
| sn_give d k : sane P d false k -> sane P (S d) true (PGive k)
| sn_lose d k : sane P d false k -> sane P (S d) true (PLose k).
Lemma sane_more {R} P d h (p : prog R) : sane P d h p -> forall d', (d <= d')%nat -> sane P d' h p.
Proof. induction 1; intros [|d'] L; try lia; constructor; auto; intros; auto with arith; match goal with H : _ |- _ => apply H; lia end. Qed.
Lemma sane_bind {A B} P d h (p : prog A) (f : A -> prog B) d2 : sane P d h p -> (forall a, sane P d2 false (f a)) -> sane P (d + d2) h (pbind p f).
Proof. intros H K. induction H; cbn [pbind Nat.add]; try (constructor; auto; fail). eapply sane_more; [apply K|lia]. Qed.

(** the same with what holds at the end, and an upload is started by the first request ([c]: no request so far) *)
Inductive kept {R} (P : event -> Prop) (Q : bool -> bool -> R -> Prop) : nat -> bool -> bool -> prog R -> Prop :=
| kp_ret d c h r : Q c h r -> kept P Q d c h (PRet r)
| kp_get d c k : kept P Q d c true k -> kept P Q (S d) c false (PGet k)
| kp_req d c es k : Forall P es -> (forall ok, kept P Q d false true (k ok)) -> kept P Q (S d) c true (PReq es k)
| kp_new d f k : (forall id, Forall P (f id)) -> (forall ok id, kept P Q d false true (k ok id)) -> kept P Q (S d) true true (PNew f k)
| kp_give d c k : kept P Q d c false k -> kept P Q (S d) c true (PGive k)
| kp_lose d c k : kept P Q d c false k -> kept P Q (S d) c true (PLose k).
Lemma kept_more {R} P (Q : bool -> bool -> R -> Prop) d c h p : kept P Q d c h p -> forall d', (d <= d')%nat -> kept P Q d' c h p.
Proof. induction 1; intros [|d'] L; try lia; constructor; auto; intros; auto with arith; match goal with H : _ |- _ => apply H; lia end. Qed.
Lemma kept_weak {R} P (Q Q' : bool -> bool -> R -> Prop) d c h p : kept P Q d c h p -> (forall c h r, Q c h r -> Q' c h r) -> kept P Q' d c h p.
Proof. intros H W. induction H; constructor; auto. Qed.
Lemma kept_bind {A B} P (Q : bool -> bool -> A -> Prop) (Q2 : bool -> bool -> B -> Prop) d c h p f d2 :
  kept P Q d c h p -> (forall c h a, Q c h a -> kept P Q2 d2 c h (f a)) -> kept P Q2 (d + d2) c h (pbind p f).
Proof. intros H K. induction H; cbn [pbind Nat.add]; try (constructor; auto; fail). eapply kept_more; [apply K; assumption|lia]. Qed.
Lemma kept_sane {R} P (Q : bool -> bool -> R -> Prop) d c h p : kept P Q d c h p -> (forall c h r, Q c h r -> h = false) -> sane P d h p.
Proof. intros H W. induction H; try (constructor; auto; fail). rewrite (W _ _ _ H). constructor. Qed.

Section Kept.
Variables b k : string.
(** about the object (b, k) *)
Definition about (e : event) : Prop :=
  match e with EPut b' k' _ | EMpCreate b' k' _ | EMpPart b' k' _ _ _ | EMpComplete b' k' _ _ => b' = b /\ k' = k | _ => False end.
Definition mine (s : s3sink) : Prop := s_bucket s = b /\ s_key s = k.
(** a method ends: with a connection iff it returns and [h1]; if a request has been made an upload is under way ([m]) *)
Definition ends {A} (m h1 : bool) (c h : bool) (x : s3sink * outcome A) : Prop :=
  mine (fst x) /\ h = (match snd x with Ok _ => h1 | _ => false end) /\ (m = true -> c = false -> s_mp (fst x) <> None).
(** code that keeps its connection when it throws *)
Definition endsT {A} (s : s3sink) (c h : bool) (x : s3sink * outcome A) : Prop :=
  fst x = s /\ h = match snd x with Ok _ | Throw _ => true | _ => false end.
Definition fit (c : bool) (s : s3sink) : Prop := mine s /\ (c = false -> s_mp s <> None).

Lemma kb {A B} d1 d2 m m1 h h1 h2 c s (q : SP A) (f : A -> SP B) :
  kept about (ends m1 h1) d1 c h (q s) -> (forall c a s', mine s' -> (m1 = true -> c = false -> s_mp s' <> None) -> kept about (ends m h2) d2 c h1 (f a s')) -> (m = true -> m1 = true) ->
  kept about (ends m h2) (d1 + d2) c h (sbind q f s).
Proof.
  intros H1 H2 HM. unfold sbind. eapply kept_bind; [exact H1|]. intros c' h' [s' r] (M & -> & MP). cbn [fst snd] in *. destruct r as [a|e| |]; [apply H2; auto| | |]; apply kp_ret; split; auto.
Qed.
Lemma kbT {A B} d1 d2 s c (q : SP A) (f : A -> SP B) :
  kept about (endsT s) d1 c true (q s) -> (forall c a, kept about (endsT s) d2 c true (f a s)) -> kept about (endsT s) (d1 + d2) c true (sbind q f s).
Proof.
  intros H1 H2. unfold sbind. eapply kept_bind; [exact H1|]. intros c' h' [s' r] (M & ->). cbn [fst snd] in *. subst s'. destruct r as [a|e| |]; [apply H2| | |]; apply kp_ret; split; auto.
Qed.
Lemma kexpect d s c t e : kept about (@endsT unit s) d c true (sexpect t e s).
Proof. unfold sexpect, sout. apply kp_ret. split; auto. destruct t; reflexivity. Qed.
Lemma kreq d s c e : about e -> kept about (endsT s) (S d) c true (sreq [e] s).
Proof. intros H. unfold sreq. apply kp_req; auto. intros ok. apply kp_ret. split; auto. Qed.
Lemma put_kept s c d : kept about (endsT s) 1 c true (p_put b k d s).
Proof. unfold p_put. do 3 (apply (kbT 0 1); [apply kexpect|intros]). apply kreq. split; auto. Qed.
Lemma part_kept s c id n d : kept about (endsT s) 1 c true (p_upload_part b k id n d s).
Proof. unfold p_upload_part. do 4 (apply (kbT 0 1); [apply kexpect|intros]). apply kreq. split; auto. Qed.
Lemma complete_kept s c id ps : kept about (endsT s) 1 c true (p_complete b k id ps s).
Proof. unfold p_complete. do 4 (apply (kbT 0 1); [apply kexpect|intros]). apply kreq. split; auto. Qed.
Lemma create_kept s : kept about (endsT s) 1 true true (p_create_multipart b k s).
Proof.
  unfold p_create_multipart, sexpect at 1, sout, sbind at 1. cbn [pbind snd fst]. destruct (negb (String.eqb b "")); cbn [snd fst]; [|apply kp_ret; split; auto].
  unfold sexpect at 1, sout, sbind at 1. cbn [pbind snd fst]. destruct (negb (String.eqb k "")); cbn [snd fst]; [|apply kp_ret; split; auto].
  unfold sbind at 1, snew. cbn [pbind]. apply kp_new; [intros id; repeat constructor|]. intros ok id. cbn [snd fst]. unfold sexpect, sout, sbind, sret. cbn [pbind snd fst]. destruct ok; cbn [pbind snd fst]; apply kp_ret; split; auto.
Qed.
Lemma kholding {A} d m s c (q : SP A) : mine s -> s_mp s <> None \/ m = false -> kept about (endsT s) d c true (q s) -> kept about (ends m true) (d + 1) c true (sholding q s).
Proof.
  intros M MP H. unfold sholding. eapply kept_bind; [exact H|]. intros c' h' [s' r] (E & ->). cbn [fst snd] in *. subst s'. assert (X : m = true -> c' = false -> s_mp s <> None) by (destruct MP; [auto|congruence]).
  destruct r as [a|e| |]; [apply kp_ret; split; auto|apply kp_lose; apply kp_ret; split; auto| |]; apply kp_ret; split; auto.
Qed.
Lemma kcatch {A} d m s c (q : SP A) a : mine s -> s_mp s <> None \/ m = false -> kept about (endsT s) d c true (q s) -> kept about (ends m true) d c true (scatch q (fun _ => sret a) s).
Proof.
  intros M MP H. rewrite <- (Nat.add_0_r d). unfold scatch. eapply kept_bind; [exact H|]. intros c' h' [s' r] (E & ->). cbn [fst snd] in *. subst s'. assert (X : m = true -> c' = false -> s_mp s <> None) by (destruct MP; [auto|congruence]).
  destruct r as [x|e| |]; apply kp_ret; split; auto.
Qed.
Lemma kret {A} d m h c s (a : A) : mine s -> (m = true -> c = false -> s_mp s <> None) -> kept about (ends m h) d c h (sret a s).
Proof. intros M X. apply kp_ret. split; auto. Qed.
Lemma kconn d m c s : mine s -> (m = true -> c = false -> s_mp s <> None) -> kept about (ends m true) (S d) c false (sconn s).
Proof. intros M X. unfold sconn. apply kp_get, kp_ret. split; auto. Qed.
Lemma kgive d m c s : mine s -> (m = true -> c = false -> s_mp s <> None) -> kept about (ends m false) (S d) c true (sgive s).
Proof. intros M X. unfold sgive. apply kp_give, kp_ret. split; auto. Qed.

Lemma create_upload_kept s c : mine s -> c = true -> kept about (ends true false) 4 c false (p_create_upload s).
Proof.
  intros [Hb Hk] ->. unfold p_create_upload. unfold sbind at 1, sget. cbn [pbind snd fst]. rewrite Hb, Hk. unfold sbind at 1, sput at 1. cbn [pbind snd fst]. set (s1 := mks3 _ _ _ _ _ _).
  assert (M : mine s1) by (split; reflexivity).
  change (kept about (ends true false) 4 true false (PGet (sbind (sholding (p_create_multipart b k)) (fun id => sbind (sput (mks3 b k (s_buf s) (s_nbuf s) (s_nflush s) (Some (id, [])))) (fun _ => sgive)) s1))).
  apply kp_get. apply (kb 2 1 true true true true false).
  - apply (kholding 1); auto; [left; discriminate|]. apply create_kept.
  - intros c id s' _ _. unfold sbind, sput. cbn [pbind snd fst]. apply kgive; [split; auto|]. intros _ _. discriminate.
  - auto.
Qed.
Lemma flush_part_kept s c : fit c s -> kept about (ends true false) 7 c false (p_flush_part s).
Proof.
  intros [M X]. unfold p_flush_part. unfold sbind at 1, sget at 1. cbn [pbind snd fst]. destruct (s_nbuf s =? 0); [apply kret; auto|].
  apply (kb 4 3 true true false false false); [destruct (s_mp s) eqn:EM; [apply kret; auto; intros; congruence|apply create_upload_kept; auto; destruct c; auto; exfalso; apply X; auto]| |auto].
  intros c1 _ s1 M1 X1. unfold sbind at 1, sconn. cbn [pbind snd fst]. apply kp_get. unfold sbind at 1, sget. cbn [pbind snd fst]. destruct (s_mp s1) as [[id parts]|] eqn:EM; cycle 1.
  { unfold sbind, slose, sout. cbn [pbind snd fst]. apply kp_lose, kp_ret. split; auto. split; auto. intros _ Hc. cbn [fst]. specialize (X1 eq_refl Hc). congruence. }
  cbv zeta. destruct M1 as [Hb Hk]. rewrite Hb, Hk. apply (kb 1 1 true true true true false).
  - apply kcatch; [split; auto|left; congruence|apply part_kept].
  - intros c2 ok s2 M2 X2. unfold sbind at 1, sgive. cbn [pbind snd fst]. apply kp_give. unfold sbind, sput. cbn [pbind snd fst]. apply kret; [split; auto|]. intros _ _. discriminate.
  - auto.
Qed.
Lemma put_object_kept s c : mine s -> kept about (ends false false) 3 c false (p_put_object s).
Proof.
  intros M. unfold p_put_object. unfold sbind at 1, sget at 1. cbn [pbind snd fst]. destruct (s_nbuf s =? 0); [apply kret; auto; discriminate|].
  unfold sbind at 1, sconn. cbn [pbind snd fst]. apply kp_get. pose proof M as [Hb Hk]. rewrite Hb, Hk. apply (kb 1 1 false false true true false).
  - apply kcatch; auto. apply put_kept.
  - intros c2 ok s2 M2 _. apply (kb 0 1 false false true true false); auto.
    + destruct ok; [|apply kret; auto; discriminate]. unfold sput. apply kp_ret. split; [split; auto|]. split; auto. discriminate.
    + intros c3 _ s3 M3 _. apply (kb 1 0 false false true false false); [apply kgive; auto; discriminate| |auto]. intros. apply kret; auto; discriminate.
  - auto.
Qed.
Lemma finalize_kept s c : mine s -> kept about (ends false false) 4 c false (p_finalize s).
Proof.
  intros M. unfold p_finalize. unfold sbind at 1, sconn. cbn [pbind snd fst]. apply kp_get. unfold sbind at 1, sget at 1. cbn [pbind snd fst]. destruct (s_mp s) as [[id parts]|].
  2: { unfold sbind, slose, sout. cbn [pbind snd fst]. apply kp_lose, kp_ret. split; auto. split; auto. discriminate. }
  pose proof M as [Hb Hk]. rewrite Hb, Hk. apply (kb 2 1 false false true true false); auto.
  - apply (kholding 1); auto. apply complete_kept.
  - intros c2 ok s2 M2 _. apply (kb 1 0 false false true false false); auto; [apply kgive; auto; discriminate|]. intros. apply kret; auto; discriminate.
Qed.
Lemma ends_weak {A} d m h c h0 (p : prog (s3sink * outcome A)) : kept about (ends true h) d c h0 p -> kept about (ends m h) d c h0 p.
Proof. intros H. eapply kept_weak; [exact H|]. intros c' h' r (A1 & A2 & A3). split; auto. Qed.
Lemma flush_kept s c : fit c s -> kept about (ends false false) 11 c false (p_flush s).
Proof.
  intros F. pose proof (proj1 F) as M. unfold p_flush. unfold sbind at 1, sget at 1. cbn [pbind snd fst]. apply (kb 11 0 false false false false false); auto.
  - destruct (s_mp s).
    + apply (kb 7 4 false false false false false); auto; [destruct (0 <? s_nbuf s); [apply ends_weak, flush_part_kept; auto|apply kret; auto; discriminate]|].
      intros c1 [|] s1 M1 _; [apply finalize_kept; auto|apply kret; auto; discriminate].
    + destruct (0 <? s_nbuf s); [eapply kept_more; [apply put_object_kept; auto|lia]|apply kret; auto; discriminate].
  - intros c1 [|] s1 M1 _; [|apply kret; auto; discriminate]. pose proof M1 as [Hb Hk]. unfold sbind, sget, sput. cbn [pbind snd fst]. apply kret; [split; auto|discriminate].
Qed.
Lemma write_loop_kept fuel : forall data s c, fit c s -> kept about (ends true false) (7 * fuel) c false (p_write_loop fuel data s).
Proof.
  induction fuel as [|f IH]; intros data s c [M X]; cbn [p_write_loop]; [unfold sout; apply kp_ret; split; auto; split; auto|]. destruct (zlen data =? 0); [apply kret; auto|].
  unfold sbind at 1, sget at 1. cbn [pbind snd fst]. destruct (part_size <? s_nbuf s); [unfold sout; apply kp_ret; split; auto; split; auto|]. cbv zeta. unfold sbind at 1, sput. cbn [pbind snd fst].
  replace (7 * S f)%nat with (7 + 7 * f)%nat by lia. apply (kb 7 (7 * f) true true false false false); auto.
  - destruct (_ =? part_size); [apply flush_part_kept|apply kret]; auto. split; auto.
  - intros c1 [|] s1 M1 X1; [apply IH; split; auto|apply kret; auto].
Qed.
Definition write_cost (d : list Z) : nat := (7 * (2 * List.length d + 2))%nat.
Lemma write_kept off d s c : fit c s -> kept about (ends true false) (write_cost d) c false (p_write off d s).
Proof.
  intros [M X]. unfold p_write. destruct (zlen d =? 0); [apply kret; auto|]. unfold sbind at 1, sget at 1. cbn [pbind snd fst]. destruct (off <? s_nflush s); [apply kret; auto|].
  unfold sbind at 1, sput. cbn [pbind snd fst]. apply write_loop_kept. split; auto.
Qed.
Fixpoint writes_cost (ds : list (list Z)) : nat := match ds with [] => 0 | d :: l => write_cost d + writes_cost l end%nat.
Lemma write_all_kept ds : forall off s c, fit c s -> kept about (ends true false) (writes_cost ds) c false (p_write_all off ds s).
Proof.
  induction ds as [|d l IH]; intros off s c F; pose proof F as [M X]; cbn [p_write_all writes_cost]; [apply kret; auto|].
  apply (kb (write_cost d) (writes_cost l) true true false false false); auto; [apply write_kept; auto|]. intros c1 [|] s1 M1 X1; [apply IH; split; auto|apply kret; auto].
Qed.
Lemma session_kept ds s : fit true s -> kept about (ends false false) (writes_cost ds + 11) true false ((sbind (p_write_all 0 ds) (fun a => sbind p_flush (fun f => sret (a, f)))) s).
Proof.
  intros F. pose proof F as [M X]. apply (kb (writes_cost ds) 11 false true false false false); auto; [apply write_all_kept; auto|]. intros c1 a s1 M1 X1.
  apply (kb 11 0 false false false false false); auto; [apply flush_kept; split; auto|]. intros. apply kret; auto; discriminate.
Qed.
End Kept.
(** what a task may store *)
Definition stores (j : task) (e : event) : Prop := match j with TObject b k _ => about b k e | TBucket _ => False end.
Definition task_cost (j : task) : nat := match j with TObject _ _ ds => writes_cost ds + 11 | TBucket _ => 3 end.
Lemma task_kept j : kept (stores j) (fun _ h _ => h = false) (task_cost j) true false (p_task j).
Proof.
  destruct j as [b k ds|b]; cbn [p_task task_cost stores].
  - destruct (String.eqb b ""); [apply kp_ret; auto|]. destruct (String.eqb k ""); [apply kp_ret; auto|]. rewrite <- (Nat.add_0_r (writes_cost ds + 11)). eapply kept_bind; [apply session_kept; split; [split; reflexivity|discriminate]|].
    intros c h [s [a|e| |]] (A1 & A2 & A3); cbn [snd] in *; apply kp_ret; auto.
  - destruct (String.eqb b ""); [apply kp_ret; auto|]. do 2 (constructor; auto). intros ok. constructor. constructor. reflexivity.
Qed.
Definition any_stores (l : list task) (e : event) : Prop := exists j, In j l /\ stores j e.
Fixpoint tasks_cost (l : list task) : nat := match l with [] => 0 | j :: l => task_cost j + tasks_cost l end%nat.
Lemma sane_weak {R} (P P' : event -> Prop) d h (p : prog R) : (forall e, P e -> P' e) -> sane P d h p -> sane P' d h p.
Proof. intros W H. induction H; constructor; auto; intros; eapply Forall_impl; eauto. Qed.
Lemma tasks_sane l : sane (any_stores l) (tasks_cost l) false (p_tasks l).
Proof.
  induction l as [|j l IH]; cbn [p_tasks tasks_cost]; [constructor|]. apply sane_bind.
  - eapply sane_weak; [|eapply kept_sane; [apply task_kept|auto]]. intros e H. exists j. split; [left; auto|auto].
  - intros r. rewrite <- (Nat.add_0_r (tasks_cost l)). apply sane_bind; [|intros; constructor]. eapply sane_weak; [|exact IH]. intros e (j' & I & H). exists j'. split; [right; auto|auto].
Qed.
