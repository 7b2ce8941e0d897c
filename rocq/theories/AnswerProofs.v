(** A run during which every request is answered as on another machine is the run on that machine. *)
Require Import ZArith List Bool String Ascii Lia.
Require Import Verif.Base Verif.Dim Verif.Json Verif.World Verif.Writer.
Import ListNotations.
Open Scope string_scope. Open Scope list_scope. Open Scope Z_scope.

Section Rules.
Context {S : Type} (wd : S -> world) (good : nat -> Prop).
Notation tk s := (w_tick (wd s)).
Definition agr {A} (m m' : M S A) : Prop := forall s,
  (tk s <= tk (fst (m s)))%nat /\ ((forall t, (tk s <= t < tk (fst (m s)))%nat -> good t) -> m s = m' s).
Lemma agr_calm {A} (m : M S A) : (forall s, tk (fst (m s)) = tk s) -> agr m m.
Proof. intros H s. rewrite H. split; [lia|auto]. Qed.
Lemma agr_ret {A} (a : A) : agr (ret a) (ret a).
Proof. apply agr_calm. auto. Qed.
Lemma agr_throw {A} e : agr (A := A) (throwM e) (throwM e).
Proof. apply agr_calm. auto. Qed.
Lemma agr_ub {A} : agr (A := A) ubM ubM.
Proof. apply agr_calm. auto. Qed.
Lemma agr_hang {A} : agr (A := A) hangM hangM.
Proof. apply agr_calm. auto. Qed.
Lemma agr_lift {A} (o : outcome A) : agr (liftM o) (liftM o).
Proof. apply agr_calm. auto. Qed.
Lemma agr_expect c e : agr (expectM c e) (expectM c e).
Proof. apply agr_calm. destruct c; auto. Qed.
Lemma agr_bind {A B} (m m' : M S A) (f f' : A -> M S B) : agr m m' -> (forall a, agr (f a) (f' a)) -> agr (bind m f) (bind m' f').
Proof.
  intros H1 H2 s. destruct (H1 s) as [X Y]. unfold bind. destruct (m s) as [s1 [a|e| |]]; cbn [fst] in *.
  - destruct (H2 a s1) as [X2 Y2]. split; [lia|]. intros G. rewrite <- Y by (intros t Ht; apply G; lia). apply Y2. intros t Ht. apply G. lia.
  - split; [exact X|]. intros G. rewrite <- (Y G). reflexivity.
  - split; [exact X|]. intros G. rewrite <- (Y G). reflexivity.
  - split; [exact X|]. intros G. rewrite <- (Y G). reflexivity.
Qed.
Lemma agr_catch {A} (m m' : M S A) h h' : agr m m' -> (forall e, agr (h e) (h' e)) -> agr (catchM m h) (catchM m' h').
Proof.
  intros H1 H2 s. destruct (H1 s) as [X Y]. unfold catchM. destruct (m s) as [s1 [a|e| |]]; cbn [fst] in *.
  - split; [exact X|]. intros G. rewrite <- (Y G). reflexivity.
  - destruct (H2 e s1) as [X2 Y2]. split; [lia|]. intros G. rewrite <- Y by (intros t Ht; apply G; lia). apply Y2. intros t Ht. apply G. lia.
  - split; [exact X|]. intros G. rewrite <- (Y G). reflexivity.
  - split; [exact X|]. intros G. rewrite <- (Y G). reflexivity.
Qed.
Lemma agr_mod f : (forall s, tk (f s) = tk s) -> agr (modM f) (modM f).
Proof. intros H. apply agr_calm. intros s. apply H. Qed.
Lemma agr_miter {A} (f f' : A -> M S unit) l : (forall a, agr (f a) (f' a)) -> agr (miter f l) (miter f' l).
Proof. intros H. induction l as [|a l IH]; cbn; [apply agr_ret|]. apply agr_bind; [apply H|]. intros _. exact IH. Qed.
Lemma agr_mfold {A B} (f f' : B -> A -> M S B) l : (forall b a, agr (f b a) (f' b a)) -> forall b, agr (mfold f l b) (mfold f' l b).
Proof. intros H. induction l as [|a l IH]; intros b; cbn; [apply agr_ret|]. apply agr_bind; [apply H|]. intros b'. apply IH. Qed.
Lemma agr_look {A} (f f' : S -> M S A) : (forall x, agr (f x) (f' x)) -> agr (bind getM f) (bind getM f').
Proof. intros H s. exact (H s s). Qed.
End Rules.

(** machine [E], but with other answers to requests, other objects in the buckets before, and another number of connections *)
Definition other (E : env) (obj : string -> string -> option (list Z)) (fault answer : nat -> bool) (conns : nat) : env :=
  mkenv (e_file0 E) (e_dir0 E) obj fault answer conns (e_compress E) (e_writable E) (e_parse E) (e_stat E).
Section Answer.
Variables (E : env) (obj : string -> string -> option (list Z)) (fault answer : nat -> bool) (conns : nat).
Notation E' := (other E obj fault answer conns).
Definition as_there (t : nat) : Prop := fault t = e_fault E t /\ answer t = e_s3 E t.
Notation rw := (agr (fun w : world => w) as_there).
Lemma r_emit e : rw (emit e) (emit e).
Proof. apply agr_mod. reflexivity. Qed.
Lemma r_seterr m : rw (set_error m) (set_error m).
Proof. apply agr_mod. reflexivity. Qed.
Lemma r_conn : rw get_connection get_connection.
Proof. apply agr_calm. intros w. unfold get_connection. destruct (w_conns w); reflexivity. Qed.
Lemma r_return : rw return_connection return_connection.
Proof. apply agr_mod. reflexivity. Qed.
Lemma r_getM : rw getM getM.
Proof. apply agr_calm. reflexivity. Qed.
Lemma r_isdir p : rw (fs_is_directory E' p) (fs_is_directory E p).
Proof. apply (agr_calm (fun w : world => w) as_there (fs_is_directory E p)). reflexivity. Qed.
Lemma r_exists p : rw (fs_exists E' p) (fs_exists E p).
Proof. apply (agr_calm (fun w : world => w) as_there (fs_exists E p)). reflexivity. Qed.
Lemma r_task {A} (m m' : M world A) : rw m m' -> rw (in_task m) (in_task m').
Proof.
  intros H w. destruct (H w) as [X Y]. unfold in_task. destruct (m w) as [w1 r]. cbn [fst] in *.
  destruct r; cbn [fst] in *; (split; [exact X|]; intros G; rewrite <- (Y G); reflexivity).
Qed.
(** a request: what is done with it depends on the answer only *)
Lemma r_tick {A} (f f' : nat -> M world A) : (forall k, as_there k -> f k = f' k) -> (forall k, rw (f k) (f k)) -> rw (k <- next_tick ;; f k) (k <- next_tick ;; f' k).
Proof.
  intros H1 H2 w. unfold bind, next_tick. cbn [fst snd]. set (w1 := mkworld (w_trace w) (S (w_tick w)) (w_conns w) (w_err w)). destruct (H2 (w_tick w) w1) as [X Y]. cbn [w1 w_tick] in X.
  split; [lia|]. intros G. rewrite (H1 (w_tick w)) by (apply G; lia). reflexivity.
Qed.
Ltac st := first
  [ apply agr_ret | apply agr_throw | apply agr_ub | apply agr_hang | apply agr_expect | apply agr_lift
  | apply r_emit | apply r_task | apply r_conn | apply r_return | apply r_seterr | apply r_isdir | apply r_exists
  | eapply agr_bind; [|intros ?]
  | match goal with |- agr _ _ (let '_ := ?x in _) _ => destruct x end
  | match goal with |- agr _ _ (if ?b then _ else _) _ => destruct b eqn:? end
  | apply agr_catch; [|intros ?] ].
Ltac sts := repeat st.
Lemma r_mkdirs p : rw (fs_create_directories E' p) (fs_create_directories E p).
Proof.
  unfold fs_create_directories. apply agr_look. intros w. change (dir_of E' (w_trace w) p) with (dir_of E (w_trace w) p). st; [st|].
  apply r_tick; [intros k [A _]; cbn [e_fault other]; rewrite A; reflexivity|]. intros k. st; sts.
Qed.
Lemma r_rm p : rw (fs_remove_all E' p) (fs_remove_all E p).
Proof. unfold fs_remove_all. apply r_tick; [intros k [A _]; cbn [e_fault other]; rewrite A; reflexivity|]. intros k. sts. Qed.
Lemma r_file_sink p : rw (file_sink E' p) (file_sink E p).
Proof.
  unfold file_sink. apply agr_look. intros w. change (parent_ok E' (w_trace w) (parent_path p)) with (parent_ok E (w_trace w) (parent_path p)).
  apply r_tick; [intros k [A _]; cbn [e_fault other]; rewrite A; reflexivity|]. intros k. sts.
Qed.
Lemma r_file_write f off d : rw (file_write E' f off d) (file_write E f off d).
Proof.
  unfold file_write. st; [st|]. st; [|st]. apply r_tick; [intros k [A _]; cbn [e_fault other]; rewrite A; reflexivity|]. intros k. sts.
Qed.
Lemma r_file_flush f : rw (file_flush f) (file_flush f).
Proof. unfold file_flush. sts. Qed.
Lemma r_file_close f : rw (file_close f) (file_close f).
Proof. unfold file_close. sts. Qed.
Lemma r_request : rw (s3_request E') (s3_request E).
Proof. unfold s3_request. apply r_tick; [intros k [_ A]; cbn [e_s3 other]; rewrite A; reflexivity|]. intros k. st. Qed.
Ltac rq := eapply agr_bind; [apply r_request|intros [? ?]].
Lemma r_put b k d : rw (s3_put E' b k d) (s3_put E b k d).
Proof. unfold s3_put. st; [st|intros]. st; [st|intros]. st; [st|intros]. rq. sts. Qed.
Lemma r_create b k : rw (s3_create_multipart E' b k) (s3_create_multipart E b k).
Proof. unfold s3_create_multipart. st; [st|]. st; [st|]. rq. sts. Qed.
Lemma r_part b k i n d : rw (s3_upload_part E' b k i n d) (s3_upload_part E b k i n d).
Proof. unfold s3_upload_part. do 4 (st; [st|]). rq. sts. Qed.
Lemma r_complete b k i l : rw (s3_complete E' b k i l) (s3_complete E b k i l).
Proof. unfold s3_complete. do 4 (st; [st|]). rq. sts. Qed.

(** *** an S3 sink *)
Notation rs := (agr (fun sw : SW => snd sw) as_there).
Lemma s_onW {A} (m m' : M world A) : rw m m' -> rs (onW m) (onW m').
Proof.
  intros H [s w]. destruct (H w) as [X Y]. unfold onW. cbn [fst snd]. destruct (m w) as [w1 r]. cbn [fst snd] in *. split; [exact X|]. intros G. rewrite <- (Y G). reflexivity.
Qed.
Lemma s_getS : rs getS getS.
Proof. apply agr_calm. reflexivity. Qed.
Lemma s_putS s : rs (putS s) (putS s).
Proof. apply agr_calm. reflexivity. Qed.
Ltac s1 := first [apply s_getS|apply s_putS|apply s_onW; first [apply r_conn|apply r_return|apply r_create|apply r_complete|apply agr_catch; [first [apply r_part|apply r_put]|intros; st]] |st].
Lemma s_create_upload : rs (s3_create_upload E') (s3_create_upload E).
Proof. unfold s3_create_upload. repeat s1. Qed.
Lemma s_flush_part : rs (s3_flush_part E') (s3_flush_part E).
Proof.
  unfold s3_flush_part. st; [s1|]. destruct (s_nbuf a =? 0); [st|]. st; [destruct (s_mp a); [st|apply s_create_upload]|]. st; [s1|]. st; [s1|]. destruct (s_mp a2) as [[id parts]|]; [|st]. cbv zeta. repeat s1.
Qed.
Lemma s_put_object : rs (s3_put_object E') (s3_put_object E).
Proof. unfold s3_put_object. repeat s1. Qed.
Lemma s_finalize : rs (s3_finalize E') (s3_finalize E).
Proof. unfold s3_finalize. st; [s1|]. st; [s1|]. destruct (s_mp a0) as [[id parts]|]; [|st]. repeat s1. Qed.
Lemma s_flush : rs (s3_flush E') (s3_flush E).
Proof.
  unfold s3_flush. st; [s1|]. st; [|destruct a0; repeat s1].
  destruct (s_mp a).
  - st; [destruct (0 <? s_nbuf a); [apply s_flush_part|st]|destruct a0; [apply s_finalize|st]].
  - destruct (0 <? s_nbuf a); [apply s_put_object|st].
Qed.
Lemma s_write_loop : forall fuel d, rs (s3_write_loop E' fuel d) (s3_write_loop E fuel d).
Proof.
  induction fuel as [|f IH]; intros d; cbn [s3_write_loop]; [st|]. destruct (zlen d =? 0); [st|]. st; [s1|]. destruct (part_size <? s_nbuf a); [st|]. cbv zeta. st; [s1|].
  st; [match goal with |- agr _ _ (if ?b then _ else _) _ => destruct b end; [apply s_flush_part|st]|destruct a1; [apply IH|st]].
Qed.
Lemma s_write off d : rs (s3_write E' off d) (s3_write E off d).
Proof. unfold s3_write. destruct (zlen d =? 0); [st|]. st; [s1|]. destruct (off <? s_nflush a); [st|]. st; [s1|]. apply s_write_loop. Qed.

(** *** sinks *)
Notation rk := (agr (fun kw : KW => snd kw) as_there).
Notation ro := (agr (fun kw : option sink * world => snd kw) as_there).
Lemma k_runF {A} s w (m m' : M world A) : rw m m' -> (w_tick w <= w_tick (snd (fst (runF m (s, w)))))%nat /\ ((forall t, (w_tick w <= t < w_tick (snd (fst (runF m (s, w)))))%nat -> as_there t) -> runF m (s, w) = runF m' (s, w)).
Proof. intros H. unfold runF. cbn [fst snd]. destruct (H w) as [X Y]. destruct (m w). cbn [fst snd] in *. split; [exact X|]. intros G. rewrite <- (Y G). reflexivity. Qed.
Lemma k_runS {A} s w x (m m' : M SW A) : rs m m' -> (w_tick w <= w_tick (snd (fst (runS s m (x, w)))))%nat /\ ((forall t, (w_tick w <= t < w_tick (snd (fst (runS s m (x, w)))))%nat -> as_there t) -> runS s m (x, w) = runS s m' (x, w)).
Proof. intros H. unfold runS. cbn [fst snd]. destruct (H (s, w)) as [X Y]. destruct (m (s, w)) as [[? ?] ?]. cbn [fst snd] in *. split; [exact X|]. intros G. rewrite <- (Y G). reflexivity. Qed.
Lemma k_write off d : rk (sink_write E' off d) (sink_write E off d).
Proof.
  intros [s w]. cbn [snd]. unfold sink_write. cbn [fst]. destruct s as [f|s]; [exact (k_runF _ _ _ _ (r_file_write f off d))|exact (k_runS _ _ _ _ _ (s_write off d))].
Qed.
Lemma k_flush : rk (sink_flush E') (sink_flush E).
Proof. intros [s w]. cbn [snd]. unfold sink_flush. cbn [fst]. destruct s as [f|s]; [exact (k_runF _ _ _ _ (r_file_flush f))|exact (k_runS _ _ _ _ _ s_flush)]. Qed.
Lemma r_destroy s : rw (sink_destroy s) (sink_destroy s).
Proof. destruct s as [f|s]; cbn [sink_destroy]; [apply r_file_close|st]. Qed.
Lemma o_finalize : ro (finalize_sink E') (finalize_sink E).
Proof.
  intros [o w]. cbn [snd]. unfold finalize_sink. destruct o as [s|]; [|cbn [fst snd]; split; [lia|auto]].
  destruct (k_flush (s, w)) as [X Y]. cbn [snd] in *. destruct (sink_flush E' (s, w)) as [[s1 w1] r1]. cbn [fst snd] in *.
  destruct r1 as [[]|e| |]; cbn [fst snd]; try solve [split; [exact X|]; intros G; rewrite <- (Y G); reflexivity].
  destruct (r_destroy s1 w1) as [X2 _]. destruct (sink_destroy s1 w1) as [w2 r2] eqn:D. cbn [fst snd] in *. split; [lia|]. intros G. rewrite <- Y by (intros t Ht; apply G; lia). rewrite D. reflexivity.
Qed.

(** *** sink creation *)
Lemma r_done r : rw (job_done r) (job_done r).
Proof. unfold job_done. destruct (fst r); st. Qed.
Lemma r_dir_job all d : rw (make_dir_job E' all d) (make_dir_job E all d).
Proof. unfold make_dir_job. repeat first [apply r_done|apply r_mkdirs|st]. Qed.
Lemma r_make_dirs ds : rw (make_dirs E' ds) (make_dirs E ds).
Proof. unfold make_dirs. apply agr_mfold. intros b d. apply r_dir_job. Qed.
Lemma r_make_files l : rw (make_files E' l) (make_files E l).
Proof. unfold make_files. apply agr_mfold. intros acc p. st; [apply r_file_sink|]. st. Qed.
Lemma r_paths base ds parts mkdirs : rw (make_data_sink_paths E' base ds parts mkdirs) (make_data_sink_paths E base ds parts mkdirs).
Proof.
  unfold make_data_sink_paths. st.
  - destruct mkdirs; [|st]. st; [apply r_make_dirs|st].
  - st.
    + apply agr_mfold. intros ps d. st; [st|]. st; [st|]. cbv zeta. st; [|st]. destruct mkdirs; [|st]. st; [apply r_make_dirs|st].
    + st; [st|]. st; [st|]. st.
Qed.
Lemma r_data_fs base ds parts : rw (make_data_sinks_fs E' base ds parts) (make_data_sinks_fs E base ds parts).
Proof.
  unfold make_data_sinks_fs. cbv zeta. st; [st|]. st.
  - apply agr_catch; [|intros; st]. st; [apply r_paths|st].
  - destruct a0 as [l|]; [|st]. st; [apply r_make_files|st].
Qed.
Lemma r_s3_sink b k : rw (s3_sink b k) (s3_sink b k).
Proof. unfold s3_sink. sts. Qed.
Lemma r_data_s3 b base ds parts : rw (make_data_sinks_s3 E' b base ds parts) (make_data_sinks_s3 E b base ds parts).
Proof.
  unfold make_data_sinks_s3. st; [st|]. st; [apply r_paths|].
  destruct (String.eqb b ""); [st|]. st; [|st]. apply agr_mfold. intros acc k. st; [apply r_s3_sink|st].
Qed.
Lemma r_sink_fs path : rw (make_sink_fs E' path) (make_sink_fs E path).
Proof.
  unfold make_sink_fs. cbv zeta. st; [st|]. st; [st|]. st; [destruct a0; [st|apply r_mkdirs]|]. destruct a1; [|st]. st; [apply r_file_sink|st].
Qed.
Lemma r_bucket b : rw (bucket_exists E' b) (bucket_exists E b).
Proof. unfold bucket_exists. st; [st|]. st; [st|]. rq. sts. Qed.
Lemma r_sink_s3 b k : rw (make_sink_s3 E' b k) (make_sink_s3 E b k).
Proof. unfold make_sink_s3. st; [st|]. st; [st|]. st; [apply r_bucket|]. destruct a1; [|st]. st; [apply r_s3_sink|st]. Qed.
Lemma r_meta_fs v base : rw (make_metadata_sinks_fs E' v base) (make_metadata_sinks_fs E v base).
Proof.
  unfold make_metadata_sinks_fs. cbv zeta. st; [st|]. st; [st|]. st; [apply r_make_dirs|]. st; [st|].
  st; [apply r_make_dirs|]. st; [st|]. apply agr_mfold. intros acc n. st; [apply r_file_sink|]. st.
Qed.
Lemma r_meta_s3 v b base : rw (make_metadata_sinks_s3 E' v b base) (make_metadata_sinks_s3 E v b base).
Proof.
  unfold make_metadata_sinks_s3. st; [st|]. st; [st|]. st; [apply r_bucket|]. destruct a1; [|st]. st; [st|]. st; [|st]. apply agr_mfold. intros acc n. st; [apply r_s3_sink|st].
Qed.

(** *** one array *)
Notation ra := (agr (fun aw : AW => snd aw) as_there).
Lemma a_onWd {A} (m m' : M world A) : rw m m' -> ra (onWd m) (onWd m').
Proof.
  intros H [a w]. destruct (H w) as [X Y]. unfold onWd. cbn [fst snd]. destruct (m w). cbn [fst snd] in *. split; [exact X|]. intros G. rewrite <- (Y G). reflexivity.
Qed.
Lemma a_getA : ra getA getA.
Proof. apply agr_calm. reflexivity. Qed.
Lemma a_modA f : ra (modA f) (modA f).
Proof. apply agr_calm. reflexivity. Qed.
Lemma a_on_sink {A} i (m m' : M KW A) : rk m m' -> ra (on_sink i m) (on_sink i m').
Proof.
  intros H [a w]. unfold on_sink. destruct (nth i (a_sinks a) None) as [s|]; [|split; auto].
  destruct (H (s, w)) as [X Y]. destruct (m (s, w)) as [[? ?] ?]. cbn [fst snd] in *. split; [exact X|]. intros G. rewrite <- (Y G). reflexivity.
Qed.
Lemma a_on_slot {A} i (m m' : M (option sink * world) A) : ro m m' -> ra (on_slot i m) (on_slot i m').
Proof.
  intros H [a w]. unfold on_slot.
  destruct (H (nth i (a_sinks a) None, w)) as [X Y]. destruct (m (nth i (a_sinks a) None, w)) as [[? ?] ?]. cbn [fst snd] in *. split; [exact X|]. intros G. rewrite <- (Y G). reflexivity.
Qed.
Lemma a_on_meta {A} (m m' : M KW A) : rk m m' -> ra (on_meta m) (on_meta m').
Proof.
  intros H [a w]. unfold on_meta. destruct (a_meta a) as [s|]; [|split; auto].
  destruct (H (s, w)) as [X Y]. destruct (m (s, w)) as [[? ?] ?]. cbn [fst snd] in *. split; [exact X|]. intros G. rewrite <- (Y G). reflexivity.
Qed.
Lemma a_on_meta_slot {A} (m m' : M (option sink * world) A) : ro m m' -> ra (on_meta_slot m) (on_meta_slot m').
Proof.
  intros H [a w]. unfold on_meta_slot.
  destruct (H (a_meta a, w)) as [X Y]. destruct (m (a_meta a, w)) as [[? ?] ?]. cbn [fst snd] in *. split; [exact X|]. intros G. rewrite <- (Y G). reflexivity.
Qed.
Ltac bd := eapply agr_bind; [|intros ?].
Ltac ag := bd; [apply a_getA|].
Ltac a1 := first [apply a_modA | apply a_onWd, r_done | st].
Lemma a_compress : ra (compress_buffers E') (compress_buffers E).
Proof.
  unfold compress_buffers. ag. destruct (c_comp (a_cfg a)) as [pr|]; [|st]. bd; [st|]. apply agr_miter. intros i. ag. cbn [e_compress other]. match goal with |- context [e_compress E ?x ?y ?z] => destruct (e_compress E x y z) end; repeat a1.
Qed.
Lemma a_make_data : ra (make_data_sinks E') (make_data_sinks E).
Proof.
  unfold make_data_sinks. ag. bd.
  - apply a_onWd. destruct (c_bucket (a_cfg a)) as [b|]; [apply r_data_s3|apply r_data_fs].
  - destruct a0 as [l|]; [|st]. bd; [|st]. apply a_modA.
Qed.
Lemma a_make_meta : ra (make_metadata_sink E') (make_metadata_sink E).
Proof.
  unfold make_metadata_sink. ag. destruct (a_meta a) eqn:Em; [st|]. bd.
  - apply a_onWd. destruct (c_bucket (a_cfg a)) as [b|]; [apply r_sink_s3|apply r_sink_fs].
  - destruct a0 as [l|]; [|st]. bd; [|st]. apply a_modA.
Qed.
Lemma a_write_meta : ra (write_array_metadata E') (write_array_metadata E).
Proof.
  unfold write_array_metadata. bd; [apply a_make_meta|]. destruct a; [|st]. ag. cbv zeta. destruct (a_v3 a).
  - bd; [st|]. destruct (dtype_v3 _); [apply a_on_meta, k_write|st].
  - destruct (dtype_v2 _); [|st]. bd; [st|]. apply a_on_meta, k_write.
Qed.
Lemma a_v2_job i : ra (v2_job E' i) (v2_job E i).
Proof. unfold v2_job. ag. bd; [|apply a_onWd, r_done]. apply agr_catch; [|intros; st]. bd; [apply a_on_sink, k_write|]. sts. Qed.
Lemma a_flush_v2 : ra (flush_impl_v2 E') (flush_impl_v2 E).
Proof.
  unfold flush_impl_v2. ag. bd; [st|]. bd; [apply a_make_data|]. destruct a1; [|st]. ag. bd; [st|]. bd; [|st]. apply agr_miter. intros i. apply a_v2_job.
Qed.
Lemma a_v3_chunk s b ci : ra (v3_chunk E' s b ci) (v3_chunk E s b ci).
Proof.
  unfold v3_chunk. ag. cbv zeta. bd.
  - apply agr_catch; [|intros; st]. bd; [apply a_on_sink, k_write|st].
  - destruct a0 as [[] [m|]]; [st| |st|st]. apply agr_catch; [|intros; st]. repeat a1.
Qed.
Lemma a_v3_chunks s : forall cs b, ra (v3_chunks E' s cs b) (v3_chunks E s cs b).
Proof. induction cs as [|c cs IH]; intros b; cbn [v3_chunks]; [st|]. bd; [apply a_v3_chunk|]. destruct a as [[] [m|]]; try st. apply IH. Qed.
Lemma a_v3_table s : ra (v3_table E' s) (v3_table E s).
Proof. unfold v3_table. ag. apply agr_catch; [|intros; st]. bd; [apply a_on_sink, k_write|st]. Qed.
Lemma a_v3_job tb cis s : ra (v3_job E' tb cis s) (v3_job E tb cis s).
Proof.
  unfold v3_job. bd; [apply a_v3_chunks|]. bd; [|apply a_onWd, r_done]. destruct a as [[] [m|]]; [st| |st|st]. destruct tb; [apply a_v3_table|st].
Qed.
Lemma a_flush_v3 : ra (flush_impl_v3 E') (flush_impl_v3 E).
Proof.
  unfold flush_impl_v3. ag. bd; [destruct (a_sinks a); [apply a_make_data|st]|]. destruct a0; [|st]. ag. cbv zeta. bd; [st|]. bd; [st|]. bd; [st|].
  bd; [destruct (a_final a0); st|]. bd; [apply agr_miter; intros i; apply a_v3_job|]. bd; [destruct a4; a1|st].
Qed.
Lemma a_flush_impl : ra (flush_impl E') (flush_impl E).
Proof. unfold flush_impl. ag. destruct (a_v3 a); [apply a_flush_v3|apply a_flush_v2]. Qed.
Lemma a_close : ra (close_sinks E') (close_sinks E).
Proof.
  unfold close_sinks. ag. bd.
  - apply agr_miter. intros i. bd; [apply a_on_slot, o_finalize|st].
  - apply a_modA.
Qed.
Lemma a_rollover : ra (rollover E') (rollover E).
Proof. unfold rollover. bd; [apply a_close|]. a1. Qed.
Lemma a_flush : ra (flush E') (flush E).
Proof.
  unfold flush. ag. destruct (a_toflush a =? 0); [st|]. bd; [apply a_compress|]. bd; [apply a_flush_impl|]. bd; [st|]. ag. bd; [st|].
  bd; [match goal with |- agr _ _ (if ?b then _ else _) _ => destruct b end; [apply a_rollover|st]|]. ag. bd.
  - match goal with |- agr _ _ (if ?b then _ else _) _ => destruct b end; [|st]. bd; [apply a_write_meta|st].
  - ag. bd; [st|]. apply a_modA.
Qed.
Lemma a_write_frame d : ra (write_frame E' d) (write_frame E d).
Proof.
  unfold write_frame. ag. bd; [st|]. match goal with |- agr _ _ (if ?b then _ else _) _ => destruct b end; [st|]. bd.
  - destruct (a_bufs a); [|st]. bd; [st|]. apply a_modA.
  - ag. bd; [st|]. match goal with |- agr _ _ (let '(_, _) := ?x in _) _ => destruct x as [bufs wr] end. bd; [a1|]. bd; [st|]. bd; [a1|]. ag. bd; [st|]. bd; [match goal with |- agr _ _ (if ?b then _ else _) _ => destruct b end; [apply a_flush|st]|st].
Qed.
Lemma a_finalize : ra (finalize_array E') (finalize_array E).
Proof.
  unfold finalize_array. bd; [a1|]. bd.
  - apply agr_catch; [|intros; st]. bd; [apply a_flush|st].
  - match goal with |- agr _ _ (if ?b then _ else _) _ => destruct b end; [|st]. bd; [apply a_on_meta_slot, o_finalize|]. match goal with |- agr _ _ (if ?b then _ else _) _ => destruct b end; [|st]. ag. bd.
    + apply agr_miter. intros o. destruct o as [s|]; [|st]. apply a_onWd, r_destroy.
    + bd; [|st]. apply a_modA.
Qed.
End Answer.
