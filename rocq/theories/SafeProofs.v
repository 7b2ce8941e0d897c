(** Which outcomes are possible when the environment may do anything: a Hoare logic with the outcomes UB excluded. *)
Require Import ZArith List Bool String Ascii Lia.
Require Import Verif.Base Verif.Spec Verif.Dim Verif.Limits Verif.Radix Verif.DimProofs Verif.ShardProofs Verif.Json Verif.World Verif.Writer Verif.TileProofs.
Import ListNotations.
Open Scope string_scope. Open Scope list_scope. Open Scope Z_scope.

(** from [P], [m] returns with [Q], or throws with [R], or hangs if [hg]; never UB *)
Definition tri {S A} (hg : Prop) (P : S -> Prop) (m : M S A) (Q : A -> S -> Prop) (R : S -> Prop) : Prop :=
  forall s, P s -> match m s with (s', Ok v) => Q v s' | (s', Throw _) => R s' | (_, UB) => False | (_, Hang) => hg end.

Section Rules.
Context {S : Type} (hg : Prop).
Implicit Types P R : S -> Prop.
Lemma t_ret {A} P (Q : A -> S -> Prop) R a : (forall s, P s -> Q a s) -> tri hg P (ret a) Q R.
Proof. intros H s X. cbn. auto. Qed.
Lemma t_throw {A} P (Q : A -> S -> Prop) R e : (forall s, P s -> R s) -> tri hg P (throwM e) Q R.
Proof. intros H s X. cbn. auto. Qed.
Lemma t_lift {A} P (Q : A -> S -> Prop) R o : (match o with Ok v => forall s, P s -> Q v s | Throw _ => forall s, P s -> R s | UB => False | Hang => hg end) -> tri hg P (liftM o) Q R.
Proof. intros H s X. cbn. destruct o; auto. Qed.
Lemma t_bind {A B} P (Q : A -> S -> Prop) (Q' : B -> S -> Prop) R m f : tri hg P m Q R -> (forall a, tri hg (Q a) (f a) Q' R) -> tri hg P (bind m f) Q' R.
Proof. intros H1 H2 s X. specialize (H1 s X). unfold bind. destruct (m s) as [s' [a|e| |]]; auto. apply H2. auto. Qed.
Lemma t_catch {A} P (Q : A -> S -> Prop) R1 R m h : tri hg P m Q R1 -> (forall e, tri hg R1 (h e) Q R) -> tri hg P (catchM m h) Q R.
Proof. intros H1 H2 s X. specialize (H1 s X). unfold catchM. destruct (m s) as [s' [a|e| |]]; auto. apply H2. auto. Qed.
Lemma t_expect P (Q : unit -> S -> Prop) R c e : (forall s, P s -> c = true -> Q tt s) -> (forall s, P s -> c = false -> R s) -> tri hg P (expectM c e) Q R.
Proof. intros H1 H2. destruct c; [apply t_ret|apply t_throw]; auto. Qed.
Lemma t_weak {A} P P' (Q Q' : A -> S -> Prop) R R' m : tri hg P m Q R -> (forall s, P' s -> P s) -> (forall v s, Q v s -> Q' v s) -> (forall s, R s -> R' s) -> tri hg P' m Q' R'.
Proof. intros H a b c s X. specialize (H s (a s X)). destruct (m s) as [s' [v|e| |]]; auto. Qed.
Lemma t_pre {A} P P' (Q : A -> S -> Prop) R m : tri hg P m Q R -> (forall s, P' s -> P s) -> tri hg P' m Q R.
Proof. intros H a. eapply t_weak; eauto. Qed.
Lemma t_fact {A} (F : Prop) P (Q : A -> S -> Prop) R m : (F -> tri hg P m Q R) -> tri hg (fun s => F /\ P s) m Q R.
Proof. intros H s [a b]. apply H; auto. Qed.
Lemma t_false {A} P (Q : A -> S -> Prop) R m : (forall s, P s -> False) -> tri hg P m Q R.
Proof. intros H s X. destruct (H s X). Qed.
Lemma t_miter {A} P R (f : A -> M S unit) l : (forall a, In a l -> tri hg P (f a) (fun _ => P) R) -> tri hg P (miter f l) (fun _ => P) R.
Proof.
  induction l as [|a l IH]; intros H; cbn; [apply t_ret; auto|]. eapply t_bind; [apply H; left; reflexivity|]. intros []. apply IH. intros; apply H; right; auto.
Qed.
Lemma t_mfold {A B} (I : B -> S -> Prop) R (f : B -> A -> M S B) l : (forall b a, In a l -> tri hg (I b) (f b a) I R) -> forall b, tri hg (I b) (mfold f l b) I R.
Proof.
  induction l as [|a l IH]; intros H b; cbn; [apply t_ret; auto|]. eapply t_bind; [apply H; left; reflexivity|]. intros b'. apply IH. intros; apply H; right; auto.
Qed.
Lemma t_get P (Q : S -> S -> Prop) R : (forall s, P s -> Q s s) -> tri hg P getM Q R.
Proof. intros H s X. cbn. auto. Qed.
Lemma t_mod P (Q : unit -> S -> Prop) R f : (forall s, P s -> Q tt (f s)) -> tri hg P (modM f) Q R.
Proof. intros H s X. cbn. auto. Qed.
End Rules.

(** ** The world: no invariant is needed *)
Section W.
Variable E : env.
(** may [m] throw ([th]) or hang ([hg])? its values satisfy [V] *)
Definition wt {A} (hg th : Prop) (V : A -> Prop) (m : M world A) : Prop := tri hg (fun _ => True) m (fun v _ => V v) (fun _ => th).
Definition anyv {A} (_ : A) : Prop := True.
Lemma w_ret {A} hg th (V : A -> Prop) a : V a -> wt hg th V (ret a).
Proof. intros H. apply t_ret. auto. Qed.
Lemma w_bind {A B} hg th (V : A -> Prop) (V' : B -> Prop) m f : wt hg th V m -> (forall a, V a -> wt hg th V' (f a)) -> wt hg th V' (bind m f).
Proof. intros H1 H2. eapply t_bind; [apply H1|]. intros a s X. apply (H2 a X s Logic.I). Qed.
Lemma w_weak {A} hg th (V V' : A -> Prop) m : wt hg th V m -> (forall a, V a -> V' a) -> wt hg th V' m.
Proof. intros H a. eapply t_weak; [apply H|..]; auto. Qed.
Lemma w_quiet {A} (hg th : Prop) (V : A -> Prop) m : wt False False V m -> wt hg th V m.
Proof. intros H s X. specialize (H s X). destruct (m s) as [s' [v|e| |]]; auto; tauto. Qed.
Lemma w_expect hg (th : Prop) c e : th \/ c = true -> wt hg th (fun _ => c = true) (expectM c e).
Proof. intros [H|H]; apply t_expect; auto. intros s _ X. congruence. Qed.
Lemma w_catch {A} hg th (V : A -> Prop) m h : wt hg True V m -> (forall e, wt hg th V (h e)) -> wt hg th V (catchM m h).
Proof. intros H1 H2. eapply t_catch; [apply H1|]. intros e. apply H2. Qed.
Lemma w_mfold {A B} hg th (V : B -> Prop) (f : B -> A -> M world B) l : (forall b a, In a l -> V b -> wt hg th V (f b a)) -> forall b, V b -> wt hg th V (mfold f l b).
Proof. induction l as [|a l IH]; intros H b Hb; cbn; [apply w_ret; auto|]. eapply w_bind; [apply H; [left; reflexivity|auto]|]. intros b' Hb'. apply IH; auto. intros; apply H; auto; right; auto. Qed.
Lemma w_miter {A} hg th (f : A -> M world unit) l : (forall a, wt hg th anyv (f a)) -> wt hg th anyv (miter f l).
Proof. induction l as [|a l IH]; intros H; cbn; [apply w_ret; exact Logic.I|]. eapply w_bind; [apply H|]. intros [] _. auto. Qed.
Lemma w_emit hg th e : wt hg th anyv (emit e).
Proof. intros s _. exact Logic.I. Qed.
Lemma w_seterr hg th e : wt hg th anyv (set_error e).
Proof. intros s _. exact Logic.I. Qed.
Lemma w_tick hg th : wt hg th anyv next_tick.
Proof. intros s _. exact Logic.I. Qed.
Lemma w_get hg th : wt hg th anyv (@getM world).
Proof. intros s _. exact Logic.I. Qed.
Lemma w_lift {A} hg th (V : A -> Prop) o v : o = Ok v -> V v -> wt hg th V (liftM o).
Proof. intros -> H s _. exact H. Qed.
Lemma w_seq {A B} hg th (V : B -> Prop) (m : M world A) f : wt hg th anyv m -> (forall a, wt hg th V (f a)) -> wt hg th V (bind m f).
Proof. intros H1 H2. eapply w_bind; [apply H1|]. auto. Qed.

Ltac ww := repeat first [ apply w_ret; exact Logic.I | apply w_emit | apply w_seterr | apply w_tick | apply w_get
  | match goal with |- wt _ _ _ (bind _ _) => apply w_seq; [|intros] end
  | match goal with |- wt _ _ _ (let '(_, _) := ?p in _) => destruct p end
  | match goal with |- wt _ _ _ (if ?b then _ else _) => destruct b end ].

(** *** Files: nothing fails visibly *)
Lemma w_isdir hg (th : Prop) p : (forall k q, e_stat E k q = true) -> wt hg th anyv (fs_is_directory E p).
Proof. intros HQ s _. unfold fs_is_directory. rewrite HQ. exact Logic.I. Qed.
Lemma w_exists hg (th : Prop) p : (forall k q, e_stat E k q = true) -> wt hg th anyv (fs_exists E p).
Proof. intros HQ s _. unfold fs_exists. rewrite HQ. exact Logic.I. Qed.
Lemma w_task {A} hg th (V : A -> Prop) (m : M world A) : wt hg False V m -> wt hg th V (in_task m).
Proof. intros H s Hs. specialize (H s Hs). unfold in_task. destruct (m s) as [s' [v|e| |]]; cbn in *; auto; contradiction. Qed.
Lemma w_mkdirs hg th p : wt hg th anyv (fs_create_directories E p).
Proof. unfold fs_create_directories. ww. Qed.
Lemma w_rm hg th p : wt hg th anyv (fs_remove_all E p).
Proof. unfold fs_remove_all. ww. Qed.
Lemma w_file hg th p : wt hg th anyv (file_sink E p).
Proof. unfold file_sink. ww. Qed.
Lemma w_fwrite hg th f off d : wt hg th (fun b => b = true) (file_write E f off d).
Proof. unfold file_write. ww; apply w_ret; reflexivity. Qed.
Lemma w_fflush hg th f : wt hg th (fun b => b = true) (file_flush f).
Proof. unfold file_flush. ww; apply w_ret; reflexivity. Qed.
Lemma w_fclose hg th f : wt hg th anyv (file_close f).
Proof. unfold file_close. ww. Qed.
Lemma w_done hg th r : wt hg th anyv (job_done r).
Proof. unfold job_done. ww. Qed.
Lemma w_mdir hg th l d : (forall k q, e_stat E k q = true) -> wt hg th anyv (make_dir_job E l d).
Proof.
  intros HQ. unfold make_dir_job. destruct (_ =? _)%string; [apply w_seq; [apply w_done|]; intros; ww|]. apply w_seq; [apply w_task, w_isdir, HQ|]. intros [].
  { apply w_seq; [apply w_done|]; intros; ww. }
  apply w_seq; [apply w_task, w_exists, HQ|]. intros [].
  { apply w_seq; [apply w_done|]; intros; ww. }
  destruct l; [|apply w_seq; [apply w_done|]; intros; ww]. apply w_seq; [apply w_mkdirs|]. intros []; apply w_seq; try apply w_done; intros; ww.
Qed.
Lemma w_dirs hg th l : (forall k q, e_stat E k q = true) -> wt hg th anyv (make_dirs E l).
Proof. intros HQ. apply w_mfold; [|exact Logic.I]. intros. apply w_mdir. exact HQ. Qed.
Definition is_file (o : option sink) : Prop := exists f, o = Some (SFile f).
Definition is_s3 (o : option sink) : Prop := exists s, o = Some (SS3 s).
Lemma w_files hg th l : wt hg th (fun v => Forall is_file v) (make_files E l).
Proof.
  apply w_mfold; [|constructor]. intros b a _ Hb. apply w_seq; [apply w_file|]. intros s. apply w_seq; [apply w_done|]. intros _. apply w_ret. apply Forall_app. split; auto. repeat constructor. eexists. reflexivity.
Qed.
Lemma w_paths hg (th : Prop) base ds parts mk : (mk = true -> forall k q, e_stat E k q = true) -> th -> (forall d, parts d <> UB /\ parts d <> Hang) -> wt hg th anyv (make_data_sink_paths E base ds parts mk).
Proof.
  intros HQ Hth Hp. unfold make_data_sink_paths.
  assert (L : forall d, wt hg th anyv (liftM (parts d))). { intros d. apply t_lift. destruct (parts d) eqn:X; unfold anyv; auto; destruct (Hp d); congruence. }
  assert (X : forall b e, wt hg th anyv (expectM b e)). { intros. eapply w_weak; [apply w_expect; auto|]. intros; exact Logic.I. }
  apply w_seq. { destruct mk; [|ww]. apply w_seq; [apply w_dirs; auto|]. intros. apply X. } intros _.
  apply w_seq.
  { apply w_mfold; [|exact Logic.I]. intros b a _ _. apply w_seq; [apply L|]. intros n. apply w_seq; [apply X|]. intros _. cbn zeta. apply w_seq; [|intros; ww].
    destruct mk; [|ww]. apply w_seq; [apply w_dirs; auto|]. intros. apply X. }
  intros paths. apply w_seq; [apply L|]. intros n. apply w_seq; [apply X|]. intros. ww.
Qed.
Lemma parts_total v3 d : (if v3 : bool then shards_along_dimension else chunks_along_dimension) d <> UB /\ (if v3 then shards_along_dimension else chunks_along_dimension) d <> Hang.
Proof. destruct v3; unfold shards_along_dimension, chunks_along_dimension; destruct (0 <? d_chunk d); try destruct (d_shard d =? 0); cbn; split; discriminate. Qed.
Lemma w_data_fs hg (th : Prop) base ds parts : (forall k q, e_stat E k q = true) -> th -> (forall d, parts d <> UB /\ parts d <> Hang) ->
  wt hg th (fun o => forall l, o = Some l -> Forall is_file l) (make_data_sinks_fs E base ds parts).
Proof.
  intros HQ Hth Hp. unfold make_data_sinks_fs. cbn zeta. eapply w_bind; [apply w_expect; auto|]. intros _ _.
  apply w_seq. { apply w_catch; [|intros; ww]. apply w_seq; [apply w_paths; auto|]. intros; ww. }
  intros [p|]; [|apply w_ret; discriminate]. eapply w_bind; [apply w_files|]. intros l Hl. apply w_ret. intros l' X. injection X as <-. auto.
Qed.
Lemma w_sink_fs hg (th : Prop) p : (forall k q, e_stat E k q = true) -> th -> wt hg th (fun o => o = None \/ is_file o) (make_sink_fs E p).
Proof.
  intros HQ Hth. unfold make_sink_fs. cbn zeta. eapply w_bind; [apply w_expect; auto|]. intros _ _. apply w_seq; [apply w_isdir, HQ|]. intros d. apply w_seq. { destruct d; [ww|apply w_mkdirs]. }
  intros []; [|apply w_ret; auto]. apply w_seq; [apply w_file|]. intros s. apply w_ret. right. eexists. reflexivity.
Qed.

(** *** S3 requests may throw, and waiting for a connection may take for ever *)
Lemma w_conn th : wt True th anyv get_connection.
Proof. intros s _. unfold get_connection. destruct (w_conns s); exact Logic.I. Qed.
Lemma w_return hg th : wt hg th anyv return_connection.
Proof. intros s _. exact Logic.I. Qed.
Lemma w_req hg th : wt hg th anyv (s3_request E).
Proof. unfold s3_request. ww. Qed.
Lemma w_exp hg b e : wt hg True anyv (expectM b e).
Proof. eapply w_weak; [apply w_expect; auto|]. intros; exact Logic.I. Qed.
Ltac wx := repeat first [ apply w_ret; exact Logic.I | apply w_emit | apply w_exp | apply w_conn | apply w_return | apply w_req | apply w_seterr
  | match goal with |- wt _ _ _ (bind _ _) => apply w_seq; [|intros] end
  | match goal with |- wt _ _ _ (match ?p with pair _ _ => _ end) => destruct p end
  | match goal with |- wt _ _ _ (if ?b then _ else _) => destruct b end ].
Lemma w_put hg b k d : wt hg True anyv (s3_put E b k d).
Proof. unfold s3_put. wx. Qed.
Lemma w_create hg b k : wt hg True anyv (s3_create_multipart E b k).
Proof. unfold s3_create_multipart. wx. Qed.
Lemma w_upload hg b k id n d : wt hg True anyv (s3_upload_part E b k id n d).
Proof. unfold s3_upload_part. wx. Qed.
Lemma w_complete hg b k id ps : wt hg True anyv (s3_complete E b k id ps).
Proof. unfold s3_complete. wx. Qed.
Lemma w_bucket b : wt True True anyv (bucket_exists E b).
Proof. unfold bucket_exists. wx. Qed.
Definition fresh3 (s : s3sink) : Prop := s_nbuf s = 0 /\ s_nflush s = 0 /\ s_mp s = None.
Lemma w_s3sink hg b k : wt hg True fresh3 (s3_sink b k).
Proof. unfold s3_sink. apply w_seq; [apply w_exp|]. intros _. apply w_seq; [apply w_exp|]. intros _. apply w_ret. repeat split. Qed.
End W.

(** ** Sinks *)

(** the counters of an S3 sink are those of its buffer *)
Definition sane3 (s : s3sink) : Prop := 0 <= s_nbuf s <= part_size /\ 0 <= s_nflush s.
Definition sane (k : sink) : Prop := match k with SFile _ => True | SS3 s => sane3 s end.

Section S3.
Variable E : env.
Definition Is (sw : SW) : Prop := sane3 (fst sw).
Definition s3ok {A} (m : M SW A) : Prop := tri True Is m (fun _ => Is) Is.
Lemma s_onW {A} (m : M world A) : wt True True anyv m -> s3ok (onW m).
Proof. intros H [s w] X. unfold onW. specialize (H w Logic.I). destruct (m w) as [w' [v|e| |]]; auto. Qed.
Lemma s_bind {A B} (m : M SW A) (f : A -> M SW B) : s3ok m -> (forall a, s3ok (f a)) -> s3ok (bind m f).
Proof. intros H1 H2. eapply t_bind; [apply H1|]. intros a. apply H2. Qed.
Lemma s_ret {A} (a : A) : s3ok (ret a).
Proof. apply t_ret. auto. Qed.
Lemma s_get {B} (f : s3sink -> M SW B) : (forall s, sane3 s -> s3ok (f s)) -> s3ok (s <- getS ;; f s).
Proof. intros H [s w] X. unfold bind, getS. cbn [fst]. apply (H s X (s, w) X). Qed.
Lemma s_put s : sane3 s -> s3ok (putS s).
Proof. intros H [s0 w] X. exact H. Qed.
Lemma s_get' : s3ok getS.
Proof. intros [s w] X. exact X. Qed.
Lemma s_create_upload : s3ok (s3_create_upload E).
Proof.
  unfold s3_create_upload. apply s_get. intros s Hs. apply s_bind; [apply s_put; exact Hs|]. intros _. apply s_bind; [apply s_onW, w_conn|]. intros _.
  apply s_bind; [apply s_onW, w_create|]. intros id. apply s_bind; [apply s_put; exact Hs|]. intros _. apply s_onW, w_return.
Qed.
Definition Ip (sw : SW) : Prop := sane3 (fst sw) /\ s_mp (fst sw) <> None.
(** after create_multipart_upload_ returns there is an upload *)
Lemma t_getS {B} hg (P : SW -> Prop) (f : s3sink -> M SW B) Q R : (forall s, tri hg (fun sw => P sw /\ fst sw = s) (f s) Q R) -> tri hg P (s <- getS ;; f s) Q R.
Proof. intros H [s w] X. unfold bind, getS. cbn [fst]. apply (H s (s, w)). auto. Qed.
Lemma t_onW {A} (P : SW -> Prop) (m : M world A) : wt True True anyv m -> (forall s w w', P (s, w) -> P (s, w')) -> tri True P (onW m) (fun _ => P) P.
Proof. intros H K [s w] X. unfold onW. specialize (H w Logic.I). destruct (m w) as [w' [v|e| |]]; eauto. Qed.
(** after create_multipart_upload_ returns there is an upload *)
Lemma s_created : tri True Is (s3_create_upload E) (fun _ => Ip) Is.
Proof.
  unfold s3_create_upload. apply t_getS. intros s.
  apply t_pre with (P := fun sw => sane3 s /\ Is sw); [|intros sw [A <-]; split; exact A]. apply t_fact. intros Hs.
  apply t_bind with (Q := fun _ => Is); [apply s_put; exact Hs|]. intros _. apply t_bind with (Q := fun _ => Is); [apply s_onW, w_conn|]. intros _.
  apply t_bind with (Q := fun _ => Is); [apply s_onW, w_create|]. intros id. apply t_bind with (Q := fun _ => Ip).
  - intros [s1 w1] _. split; [exact Hs|discriminate].
  - intros _. eapply t_weak; [apply (t_onW Ip _ (w_return True True)); auto|auto|auto|]. intros x [X _]. exact X.
Qed.
Lemma u64_nonneg x : 0 <= u64 x.
Proof. unfold u64. apply Z.mod_pos_bound. reflexivity. Qed.
Lemma s_flush_part : s3ok (s3_flush_part E).
Proof.
  unfold s3_flush_part. apply t_getS. intros s0. destruct (s_nbuf s0 =? 0); [apply t_ret; tauto|].
  eapply t_bind with (Q := fun _ => Ip).
  { destruct (s_mp s0) eqn:Y; [|eapply t_pre; [apply s_created|]; tauto]. apply t_ret. intros sw [A B]. split; auto. congruence. }
  intros _. eapply t_bind with (Q := fun _ => Ip).
  { eapply t_weak; [apply (t_onW Ip _ (w_conn True)); auto|auto|auto|]. intros s [X _]. exact X. }
  intros _. apply t_getS. intros s1. destruct (s_mp s1) as [[id parts]|] eqn:Y; [|apply t_false; intros s [[_ A] B]; congruence].
  apply t_pre with (P := Is); [|intros s [[A _] _]; exact A].
  apply s_bind; [apply s_onW, w_catch; [apply w_upload|intros; apply w_ret; exact Logic.I]|]. intros ok. apply s_bind; [apply s_onW, w_return|]. intros _.
  apply s_bind; [|intros; apply s_ret]. apply s_put. split; cbn; [unfold part_size; lia|apply u64_nonneg].
Qed.
(** after flush_part_ the buffer is empty *)
Lemma s_put_object : s3ok (s3_put_object E).
Proof.
  unfold s3_put_object. apply s_get. intros s [H1 H2]. destruct (s_nbuf s =? 0); [apply s_ret|]. apply s_bind; [apply s_onW, w_conn|]. intros _.
  apply s_bind; [apply s_onW, w_catch; [apply w_put|intros; apply w_ret; exact Logic.I]|]. intros ok. apply s_bind.
  { destruct ok; [apply s_put; split; cbn; unfold part_size; lia|apply s_ret]. }
  intros _. apply s_bind; [apply s_onW, w_return|]. intros; apply s_ret.
Qed.
Lemma s_finalize : tri True Ip (s3_finalize E) (fun _ => Is) Is.
Proof.
  unfold s3_finalize. eapply t_bind with (Q := fun _ => Ip).
  { eapply t_weak; [apply (t_onW Ip _ (w_conn True)); auto|auto|auto|]. intros s [X _]. exact X. }
  intros _. apply t_getS. intros s1. destruct (s_mp s1) as [[id parts]|] eqn:Y; [|apply t_false; intros s [[_ A] B]; congruence].
  apply t_pre with (P := Is); [|intros s [[A _] _]; exact A].
  apply s_bind; [apply s_onW, w_complete|]. intros ok. apply s_bind; [apply s_onW, w_return|]. intros. apply s_ret.
Qed.
Lemma s_flush_part_mp : tri True Ip (s3_flush_part E) (fun _ => Ip) Is.
Proof.
  unfold s3_flush_part. apply t_getS. intros s0. destruct (s_nbuf s0 =? 0); [apply t_ret; tauto|].
  apply t_pre with (P := fun sw => s_mp s0 <> None /\ Ip sw); [|intros sw [A <-]; split; [exact (proj2 A)|exact A]]. apply t_fact. intros Hm.
  destruct (s_mp s0) as [x|]; [|congruence]. apply t_bind with (Q := fun _ => Ip); [apply t_ret; auto|]. intros _.
  eapply t_bind with (Q := fun _ => Ip).
  { eapply t_weak; [apply (t_onW Ip _ (w_conn True)); auto|auto|auto|]. intros s [X _]. exact X. }
  intros _. apply t_getS. intros s1. destruct (s_mp s1) as [[id parts]|] eqn:Y; [|apply t_false; intros s [[_ A] B]; congruence].
  apply t_pre with (P := Is); [|intros s [[A _] _]; exact A].
  apply t_bind with (Q := fun _ => Is); [apply s_onW, w_catch; [apply w_upload|intros; apply w_ret; exact Logic.I]|]. intros ok. apply t_bind with (Q := fun _ => Is); [apply s_onW, w_return|]. intros _.
  apply t_bind with (Q := fun _ => Ip); [|intros; apply t_ret; auto]. intros [s2 w2] _. split; [|discriminate]. split; cbn; [unfold part_size; lia|apply u64_nonneg].
Qed.
Lemma s_flush : s3ok (s3_flush E).
Proof.
  unfold s3_flush. apply t_getS. intros s. eapply t_bind with (Q := fun _ => Is).
  - destruct (s_mp s) as [x|] eqn:Y.
    + apply t_pre with (P := Ip); [|intros sw [A B]; split; auto; congruence]. eapply t_bind with (Q := fun _ => Ip).
      * destruct (0 <? s_nbuf s); [apply s_flush_part_mp|apply t_ret; auto].
      * intros []; [apply s_finalize|]. apply t_ret. intros s1 [A _]. exact A.
    + apply t_pre with (P := Is); [|tauto]. destruct (0 <? s_nbuf s); [apply s_put_object|apply s_ret].
  - intros []; [|apply s_ret]. apply s_get. intros s' [H1 H2]. apply s_bind; [|intros; apply s_ret]. apply s_put. split; cbn; unfold part_size in *; lia.
Qed.
Lemma s_write_loop : forall fuel d, s3ok (s3_write_loop E fuel d).
Proof.
  induction fuel as [|f IH]; intros d; cbn [s3_write_loop]; [intros s X; exact Logic.I|]. destruct (zlen d =? 0); [apply s_ret|]. apply s_get. intros s [H1 H2].
  destruct (part_size <? s_nbuf s) eqn:Y; [lia|]. cbn zeta. apply s_bind.
  { apply s_put. split; cbn; [|auto]. pose proof (zlen_nonneg d). split; lia. }
  intros _. apply s_bind; [destruct (_ =? part_size); [apply s_flush_part|apply s_ret]|]. intros []; [apply IH|apply s_ret].
Qed.
(** at offset 0 *)
Lemma s_write d : s3ok (s3_write E 0 d).
Proof.
  unfold s3_write. destruct (zlen d =? 0); [apply s_ret|]. apply s_get. intros s [H1 H2]. destruct (0 <? s_nflush s) eqn:Y; [apply s_ret|].
  apply s_bind; [|intros; apply s_write_loop]. apply s_put. split; cbn; unfold part_size; lia.
Qed.
End S3.

(** ** One sink of either kind; [fs]: only files occur *)
Section Sink.
Variables (E : env) (fs : bool).
Notation s3 := (fs = false).
(** the sinks that occur *)
Definition kind (k : sink) : Prop := match k with SFile _ => fs = true | SS3 s => fs = false /\ sane3 s end.
Definition Ik (kw : KW) : Prop := kind (fst kw).
Lemma k_write off d : fs = true \/ off = 0 -> tri s3 Ik (sink_write E off d) (fun ok => fun kw => Ik kw /\ (fs = true -> ok = true)) (fun kw => s3 /\ Ik kw).
Proof.
  intros Ho [[f|s] w] X; cbn in X; unfold sink_write; cbn [fst].
  - unfold runF. cbn [fst snd]. pose proof (w_fwrite E False False f off d w Logic.I) as Y. destruct (file_write E f off d w) as [w' [b|e| |]]; try tauto; split; auto.
  - destruct X as [Hs X]. destruct Ho as [Ho| ->]; [congruence|]. unfold runS. cbn [fst snd]. pose proof (s_write E d (s, w) X) as Y.
    destruct (s3_write E 0 d (s, w)) as [[s' w'] [b|e| |]]; cbn; auto; repeat split; auto; try congruence; try exact Y; try apply Y; intros; congruence.
Qed.
Definition slot (o : option sink) : Prop := match o with None => True | Some k => kind k end.
Lemma k_final : tri s3 (fun ow : option sink * world => slot (fst ow)) (finalize_sink E) (fun ok ow => slot (fst ow) /\ (ok = true -> fst ow = None) /\ (fs = true -> ok = true)) (fun ow => s3 /\ slot (fst ow)).
Proof.
  intros [[[f|s]|] w] X; cbn in X; unfold finalize_sink; cbn [fst snd]; auto.
  - unfold sink_flush, runF. cbn [fst snd]. pose proof (w_fflush False False f w Logic.I) as Y. destruct (file_flush f w) as [w' [b|e| |]]; try tauto. subst b. cbn [sink_destroy].
    destruct (file_close f w') as [w2 r]. cbn. auto.
  - unfold sink_flush, runS. cbn [fst snd]. destruct X as [Hs X]. pose proof (s_flush E (s, w) X) as Y. destruct (s3_flush E (s, w)) as [[s' w'] [[]|e| |]]; cbn; auto.
    + split; [split; auto|]. split; intros; congruence.
Qed.
End Sink.
