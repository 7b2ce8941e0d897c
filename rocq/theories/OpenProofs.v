(** Accounting of file descriptors: every file opened is held by a sink or has been closed. *)
Require Import ZArith List Bool String Ascii Lia.
Require Import Verif.Base Verif.Dim Verif.Json Verif.World Verif.Writer Verif.FrameProofs Verif.Stream Verif.Api.
Import ListNotations.
Open Scope string_scope. Open Scope list_scope. Open Scope Z_scope.

(** which files are counted: those with one path, or all *)
Definition key : Type := option string.
Definition one (q : string) (p : key) : Z := match p with Some p => if String.eqb q p then 1 else 0 | None => 1 end.
Definition ev_bal (e : event) (p : key) : Z := match e with EOpen q => one q p | EClose q => - one q p | _ => 0 end.
Fixpoint bal (evs : list event) (p : key) : Z := match evs with [] => 0 | e :: l => ev_bal e p + bal l p end.
Lemma bal_app a b p : bal (a ++ b) p = bal a p + bal b p.
Proof. induction a as [|e a IH]; cbn; [reflexivity|]. rewrite IH. lia. Qed.

(** descriptors held *)
Definition h_file (f : fsink) (p : key) : Z := if f_open f then one (f_path f) p else 0.
Definition h_sink (s : sink) : key -> Z := match s with SFile f => h_file f | SS3 _ => fun _ => 0 end.
Definition h_slot (o : option sink) (p : key) : Z := match o with Some s => h_sink s p | None => 0 end.
Fixpoint h_slots (l : list (option sink)) (p : key) : Z := match l with [] => 0 | o :: l => h_slot o p + h_slots l p end.
Definition h_writer (a : writer) (p : key) : Z := h_slots (a_sinks a) p + h_slot (a_meta a) p.
Fixpoint h_writers (l : list writer) (p : key) : Z := match l with [] => 0 | a :: l => h_writer a p + h_writers l p end.
Definition h_stream (s : stream) (p : key) : Z := h_slots (map snd (s_msinks s)) p + h_writers (s_writers s) p.
Definition z0 (_ : key) : Z := 0.
Definition zq {A} (_ : A) (_ : key) : Z := 0.

Section Rules.
Context {S : Type} (W : S -> world) (H : S -> key -> Z).
(** Run at [s] holding [c] besides what [s] holds, [m] ends holding [Q v] besides what the new state holds. *)
Definition acct {A} (s : S) (c : key -> Z) (m : M S A) (Q : A -> key -> Z) : Prop :=
  exists evs, w_trace (W (fst (m s))) = w_trace (W s) ++ evs /\
    forall p, bal evs p + H s p + c p = H (fst (m s)) p + match snd (m s) with Ok v => Q v p | _ => 0 end.
Definition accts {A} c (m : M S A) Q : Prop := forall s, acct s c m Q.
Notation fr m := (accts z0 m zq).
Lemma c_ret {A} s c (Q : A -> key -> Z) a : (forall p, c p = Q a p) -> acct s c (ret a) Q.
Proof. intros X. exists []. cbn. rewrite app_nil_r. split; [auto|]. intros p. rewrite X. lia. Qed.
Lemma c_stop {A} s (Q : A -> key -> Z) o : (forall v, o <> Ok v) -> acct s z0 (fun s => (s, o)) Q.
Proof. intros X. exists []. cbn. rewrite app_nil_r. split; [auto|]. intros p. unfold z0. destruct o; try lia. destruct (X a eq_refl). Qed.
Lemma c_throw {A} s (Q : A -> key -> Z) e : acct s z0 (throwM e) Q. Proof. apply (c_stop s Q (Throw e)). discriminate. Qed.
Lemma c_ub {A} s (Q : A -> key -> Z) : acct s z0 ubM Q. Proof. apply (c_stop s Q UB). discriminate. Qed.
Lemma c_hang {A} s (Q : A -> key -> Z) : acct s z0 hangM Q. Proof. apply (c_stop s Q Hang). discriminate. Qed.
Lemma c_expect s b e : acct s z0 (expectM b e) zq.
Proof. destruct b; [apply c_ret; reflexivity|apply c_throw]. Qed.
Lemma c_lift {A} s (o : outcome A) : acct s z0 (liftM o) zq.
Proof. exists []. unfold liftM. cbn. rewrite app_nil_r. split; [auto|]. intros p. unfold z0, zq. destruct o; lia. Qed.
Lemma c_bind {A B} s c (P : A -> key -> Z) (Q : B -> key -> Z) m f :
  acct s c m P -> (forall a s', m s = (s', Ok a) -> acct s' (P a) (f a) Q) -> acct s c (bind m f) Q.
Proof.
  intros (e1 & T1 & B1) X. unfold acct, bind in *. destruct (m s) as [s1 [a|e| |]]; cbn [fst snd] in *; try (exists e1; split; assumption).
  destruct (X a s1 eq_refl) as (e2 & T2 & B2). exists (e1 ++ e2). rewrite T2, T1, app_assoc. split; [auto|]. intros p. rewrite bal_app. specialize (B1 p). specialize (B2 p). lia.
Qed.
Lemma c_seq {A B} s c (P : A -> key -> Z) (Q : B -> key -> Z) m f : acct s c m P -> (forall a, accts (P a) (f a) Q) -> acct s c (bind m f) Q.
Proof. intros X Y. eapply c_bind; [exact X|]. intros a s' _. apply Y. Qed.
Lemma c_catch {A} s c (Q : A -> key -> Z) m h : acct s c m Q -> (forall e, accts z0 (h e) Q) -> acct s c (catchM m h) Q.
Proof.
  intros (e1 & T1 & B1) X. unfold acct, catchM in *. destruct (m s) as [s1 [a|e| |]]; cbn [fst snd] in *; try (exists e1; split; assumption).
  destruct (X e s1) as (e2 & T2 & B2). exists (e1 ++ e2). rewrite T2, T1, app_assoc. split; [auto|]. intros p. rewrite bal_app. specialize (B1 p). specialize (B2 p). unfold z0 in B2. lia.
Qed.
Lemma c_miter {A} (f : A -> M S unit) l : (forall a, In a l -> fr (f a)) -> fr (miter f l).
Proof.
  induction l as [|a l IH]; intros X s; cbn; [apply c_ret; reflexivity|]. eapply c_seq; [apply X; left; reflexivity|]. intros [] s'. apply IH. intros; apply X; right; auto.
Qed.
Lemma c_mfold {A B} (Q : B -> key -> Z) (f : B -> A -> M S B) l : (forall b a, accts (Q b) (f b a) Q) -> forall b, accts (Q b) (mfold f l b) Q.
Proof.
  intros X. induction l as [|a l IH]; intros b s; cbn; [apply c_ret; reflexivity|]. eapply c_seq; [apply X|]. intros b' s'. apply IH.
Qed.
Lemma c_ext {A} s c c' (m : M S A) Q Q' : acct s c m Q -> (forall p, c p = c' p) -> (forall v p, Q v p = Q' v p) -> acct s c' m Q'.
Proof. intros (e & T & B) X Y. exists e. split; [auto|]. intros p. rewrite <- X, B. destruct (snd (m s)); try reflexivity. rewrite Y. reflexivity. Qed.
(** a program that keeps what it holds passes on a credit *)
Lemma c_frame {A} s (m : M S A) c (Q : A -> key -> Z) : acct s z0 m zq -> (forall v, snd (m s) = Ok v -> forall p, Q v p = c p) -> (exists v, snd (m s) = Ok v) -> acct s c m Q.
Proof. intros (e & T & B) X (v & V). exists e. split; [auto|]. intros p. specialize (B p). rewrite V in *. rewrite (X v eq_refl). unfold z0, zq in B. lia. Qed.
End Rules.
Notation aw := (acct (fun w : world => w) (fun _ => z0)).
Notation pw m := (accts (fun w : world => w) (fun _ => z0) z0 m zq).

Section Open.
Variable E : env.

Lemma w_emit w e : aw w z0 (emit e) (fun _ p => ev_bal e p).
Proof. exists [e]. split; [reflexivity|]. intros p. cbn. unfold z0. lia. Qed.
Lemma w_quiet e : (forall p, ev_bal e p = 0) -> pw (emit e).
Proof. intros X w. eapply c_ext; [apply w_emit|reflexivity|]. intros v p. apply X. Qed.
Lemma w_same {A} (m : M world A) : (forall w, w_trace (fst (m w)) = w_trace w) -> pw m.
Proof. intros X w. exists []. rewrite X, app_nil_r. split; [auto|]. intros p. unfold z0, zq. destruct (snd (m w)); reflexivity. Qed.
Lemma w_tick : pw next_tick. Proof. apply w_same. reflexivity. Qed.
Lemma w_err m : pw (set_error m). Proof. apply w_same. reflexivity. Qed.
Lemma w_isdir p : pw (fs_is_directory E p). Proof. apply w_same. reflexivity. Qed.
Lemma w_exists p : pw (fs_exists E p). Proof. apply w_same. reflexivity. Qed.
Lemma w_task {A} (m : M world A) : (forall w, w_trace (fst (m w)) = w_trace w) -> pw (in_task m).
Proof. intros H. apply w_same. intros w. unfold in_task. specialize (H w). destruct (m w) as [w' [a|e| |]]; exact H. Qed.
Lemma w_conn : pw get_connection. Proof. apply w_same. intros w. unfold get_connection. destruct (w_conns w); reflexivity. Qed.
Lemma w_return : pw return_connection. Proof. apply w_same. reflexivity. Qed.
Lemma w_get : pw getM. Proof. apply w_same. reflexivity. Qed.
Ltac st := first
  [ apply c_ret; reflexivity | apply c_throw | apply c_ub | apply c_hang | apply c_expect | apply c_lift
  | apply w_quiet; reflexivity | apply w_tick | apply w_err | apply w_isdir | apply w_exists | apply w_conn | apply w_return | apply w_get
  | eapply (@c_seq _ _ _ _ _ _ _ zq); [|intros ? ?]
  | match goal with |- acct _ _ _ _ (if ?b then _ else _) _ => destruct b end
  | match goal with |- acct _ _ _ _ (let '_ := ?x in _) _ => destruct x end
  | apply c_catch; [|intros ? ?] ].
Lemma w_mkdirs p : pw (fs_create_directories E p). Proof. intros w. unfold fs_create_directories. repeat st. Qed.
Lemma w_rm p : pw (fs_remove_all E p). Proof. intros w. unfold fs_remove_all. repeat st. Qed.
Lemma w_file_sink p w : aw w z0 (file_sink E p) h_file.
Proof.
  unfold file_sink. eapply (@c_seq _ _ _ _ _ _ _ zq); [apply w_get|intros w1 w2]. eapply (@c_seq _ _ _ _ _ _ _ zq); [apply w_tick|intros k w3].
  match goal with |- acct _ _ _ _ (if ?b then _ else _) _ => destruct b end; [|apply c_ret; reflexivity]. eapply c_seq; [apply w_emit|]. intros ? ?. apply c_ret. intros q. reflexivity.
Qed.
Lemma w_file_write f off d : pw (file_write E f off d). Proof. intros w. unfold file_write. repeat st. Qed.
Lemma w_file_flush f : pw (file_flush f). Proof. intros w. unfold file_flush. repeat st. Qed.
Lemma w_destroy s w : aw w (h_sink s) (sink_destroy s) zq.
Proof.
  destruct s as [f|s]; cbn [sink_destroy h_sink]; [|apply c_ret; reflexivity]. unfold file_close, h_file. destruct (f_open f) eqn:O; [|apply c_ret; reflexivity].
  exists [EClose (f_path f)]. split; [reflexivity|]. intros p. cbn. unfold z0, zq. lia.
Qed.
Lemma w_request : pw (s3_request E). Proof. intros w. unfold s3_request. repeat st. Qed.
Ltac t_w1 := first [apply w_request|st].
Lemma w_put b k d : pw (s3_put E b k d). Proof. intros w. unfold s3_put. repeat t_w1. Qed.
Lemma w_create b k : pw (s3_create_multipart E b k). Proof. intros w. unfold s3_create_multipart. repeat t_w1. Qed.
Lemma w_part b k i n d : pw (s3_upload_part E b k i n d). Proof. intros w. unfold s3_upload_part. repeat t_w1. Qed.
Lemma w_complete b k i l : pw (s3_complete E b k i l). Proof. intros w. unfold s3_complete. repeat t_w1. Qed.

(** *** S3 sinks hold no descriptors *)
Notation ps m := (accts (fun sw : SW => snd sw) (fun _ => z0) z0 m zq).
Lemma s_onW {A} (m : M world A) : pw m -> ps (onW m).
Proof. intros X [s w]. destruct (X w) as (e & T & B). exists e. unfold onW. destruct (m w) as [w' r]. cbn [fst snd] in *. auto. Qed.
Lemma s_getS : ps getS. Proof. intros [s w]. exists []. cbn. rewrite app_nil_r. auto. Qed.
Lemma s_putS s : ps (putS s). Proof. intros [s0 w]. exists []. cbn. rewrite app_nil_r. auto. Qed.
Ltac t_s1 := first [apply s_getS|apply s_putS|apply s_onW; first [apply w_conn|apply w_return|apply w_create|apply w_part|apply w_complete|apply w_put|intros ?; apply c_catch; [first [apply w_part|apply w_put]|intros ? ?; st]]|st].
Lemma s_create_upload : ps (s3_create_upload E). Proof. intros s. unfold s3_create_upload. repeat t_s1. Qed.
Lemma s_flush_part : ps (s3_flush_part E).
Proof.
  intros s. unfold s3_flush_part. t_s1; [t_s1|]. t_s1; [t_s1|]. t_s1; [destruct (s_mp a); [t_s1|apply s_create_upload]|]. t_s1; [t_s1|]. t_s1; [t_s1|]. destruct (s_mp a2) as [[id parts]|]; [|t_s1]. repeat t_s1.
Qed.
Lemma s_put_object : ps (s3_put_object E). Proof. intros s. unfold s3_put_object. repeat t_s1. Qed.
Lemma s_finalize : ps (s3_finalize E). Proof. intros s. unfold s3_finalize. t_s1; [t_s1|]. t_s1; [t_s1|]. destruct (s_mp a0) as [[id parts]|]; [|t_s1]. repeat t_s1. Qed.
Lemma s_flush : ps (s3_flush E).
Proof.
  intros s. unfold s3_flush. t_s1; [t_s1|]. t_s1; [|repeat t_s1]. destruct (s_mp a).
  - t_s1; [t_s1; [apply s_flush_part|t_s1]|]. t_s1; [apply s_finalize|t_s1].
  - t_s1; [apply s_put_object|t_s1].
Qed.
Lemma s_write_loop : forall fuel d, ps (s3_write_loop E fuel d).
Proof.
  induction fuel as [|f IH]; intros d s; cbn [s3_write_loop]; [t_s1|]. t_s1; [t_s1|]. t_s1; [t_s1|]. t_s1; [t_s1|]. cbv zeta. t_s1; [t_s1|]. t_s1; [t_s1; [apply s_flush_part|t_s1]|]. t_s1; [apply IH|t_s1].
Qed.
Lemma s_write off d : ps (s3_write E off d).
Proof. intros s. unfold s3_write. t_s1; [t_s1|]. t_s1; [t_s1|]. t_s1; [t_s1|]. t_s1; [t_s1|]. apply s_write_loop. Qed.

(** *** sinks *)
Notation pk m := (accts (fun kw : KW => snd kw) (fun kw => h_sink (fst kw)) z0 m zq).
Lemma k_write off d : pk (sink_write E off d).
Proof.
  intros [s w]. unfold sink_write, acct. cbn [fst snd]. destruct s as [f|s].
  - destruct (w_file_write f off d w) as (e & T & B). exists e. unfold runF. cbn [fst snd]. destruct (file_write E f off d w) as [w' r]. cbn [fst snd] in *. split; [auto|]. intros p. specialize (B p). unfold z0, zq in *. destruct r; lia.
  - destruct (s_write off d (s, w)) as (e & T & B). exists e. unfold runS. cbn [fst snd]. destruct (s3_write E off d (s, w)) as [[s' w'] r]. cbn [fst snd] in *. split; auto.
Qed.
Lemma k_flush : pk (sink_flush E).
Proof.
  intros [s w]. unfold sink_flush, acct. cbn [fst snd]. destruct s as [f|s].
  - destruct (w_file_flush f w) as (e & T & B). exists e. unfold runF. cbn [fst snd]. destruct (file_flush f w) as [w' r]. cbn [fst snd] in *. split; [auto|]. intros p. specialize (B p). unfold z0, zq in *. destruct r; lia.
  - destruct (s_flush (s, w)) as (e & T & B). exists e. unfold runS. cbn [fst snd]. destruct (s3_flush E (s, w)) as [[s' w'] r]. cbn [fst snd] in *. split; auto.
Qed.
Notation po m := (accts (fun ow : option sink * world => snd ow) (fun ow => h_slot (fst ow)) z0 m zq).
Lemma o_finalize : po (finalize_sink E).
Proof.
  intros [[s|] w]; unfold finalize_sink, acct; cbn [fst snd].
  - destruct (k_flush (s, w)) as (e & T & B). destruct (sink_flush E (s, w)) as [[s' w'] r]. cbn [fst snd] in *.
    assert (D : exists evs, w_trace w' = w_trace w ++ evs /\ forall p, bal evs p + h_slot (Some s) p + z0 p = h_slot (Some s') p + 0) by (exists e; split; [auto|]; intros p; specialize (B p); unfold zq in B; destruct r; cbn; lia).
    destruct r as [[]|m| |]; cbn [fst snd]; try exact D. destruct (w_destroy s' w') as (e2 & T2 & B2). destruct (sink_destroy s' w') as [w2 r2]. cbn [fst snd] in *. exists (e ++ e2). rewrite T2, T, app_assoc. split; auto.
    intros p. rewrite bal_app. specialize (B p). specialize (B2 p). unfold z0, zq in *. cbn. destruct r2; lia.
  - exists []. cbn. rewrite app_nil_r. auto.
Qed.
Lemma finalize_none o w o' w' : finalize_sink E (o, w) = ((o', w'), Ok true) -> o' = None.
Proof.
  unfold finalize_sink. destruct o as [s|]; [|intros X; injection X as <- _; auto]. destruct (sink_flush E (s, w)) as [[s' w1] r]. destruct r as [[]|m| |]; try discriminate. destruct (sink_destroy s' w1) as [w2 r2]. intros X. injection X as <- _. auto.
Qed.

(** *** sink creation *)
Lemma h_slots_app a b p : h_slots (a ++ b) p = h_slots a p + h_slots b p.
Proof. induction a as [|o a IH]; cbn; [reflexivity|]. rewrite IH. lia. Qed.
Lemma w_done r : pw (job_done r). Proof. intros w. unfold job_done. repeat st. Qed.
Ltac t_w2 := first [apply w_done|apply w_task; reflexivity|apply w_mkdirs|t_w1].
Lemma w_dir_job all d : pw (make_dir_job E all d). Proof. intros w. unfold make_dir_job. repeat t_w2. Qed.
Lemma w_dirs ds : pw (make_dirs E ds).
Proof. intros w. unfold make_dirs. refine (c_mfold _ _ zq _ _ _ true w). intros b a s. apply w_dir_job. Qed.
Lemma w_files l w : aw w z0 (make_files E l) h_slots.
Proof.
  unfold make_files. refine (c_mfold _ _ h_slots _ _ _ [] w). intros acc p w1. unfold acct, bind. destruct (w_file_sink p w1) as (e & T & B). 
  destruct (file_sink E p w1) as [w2 r] eqn:F. assert (R : exists f, r = Ok f). { unfold file_sink, bind, getM, next_tick in F. cbn in F. destruct (_ && _); cbn in F; injection F as _ <-; eauto. }
  destruct R as (f & ->). cbn [fst snd job_done ret] in *. exists e. split; [auto|]. intros q. specialize (B q). rewrite h_slots_app. cbn. unfold z0 in *. lia.
Qed.
Lemma w_paths base ds parts b : pw (make_data_sink_paths E base ds parts b).
Proof.
  intros w. unfold make_data_sink_paths. st; [destruct b; [st; [apply w_dirs|st]|st]|]. st.
  - refine (c_mfold _ _ zq _ _ _ [base] _). intros ps d w1. st; [st|]. st; [st|]. cbv zeta. st; [destruct b; [st; [apply w_dirs|st]|st]|]. st.
  - repeat st.
Qed.
Definition h_made (o : option (list (option sink))) (p : key) : Z := match o with Some l => h_slots l p | None => 0 end.
Lemma w_data_fs base ds parts w : aw w z0 (make_data_sinks_fs E base ds parts) h_made.
Proof.
  unfold make_data_sinks_fs. cbv zeta. st; [st|]. st; [st; [st; [apply w_paths|st]|st]|]. destruct a0 as [l|]; [|apply c_ret; reflexivity]. eapply c_seq; [apply w_files|]. intros l' w'. apply c_ret. reflexivity.
Qed.
Lemma w_s3_sink b k : pw (s3_sink b k). Proof. intros w. unfold s3_sink. repeat st. Qed.
(** lists of S3 sinks *)
Lemma s3_files b l w acc p : (forall q, h_slots acc q = 0) -> forall w' v, mfold (fun acc k => s <- s3_sink b k ;; ret (acc ++ [Some (SS3 s)])%list) l acc w = (w', Ok v) -> h_slots v p = 0.
Proof.
  revert acc w. induction l as [|k l IH]; intros acc w X w' v; cbn [mfold].
  - intros Y. injection Y as _ <-. auto.
  - unfold bind at 1 2. destruct (s3_sink b k w) as [w1 [s|e| |]]; try discriminate. cbn [ret]. apply IH. intros q. rewrite h_slots_app, X. reflexivity.
Qed.
Lemma w_data_s3 b base ds parts w : aw w z0 (make_data_sinks_s3 E b base ds parts) h_made.
Proof.
  unfold make_data_sinks_s3. st; [st|]. st; [apply w_paths|]. st; [apply c_ret; reflexivity|].
  eapply c_bind with (P := zq).
  - refine (c_mfold _ _ zq _ _ _ [] _). intros acc k w1. st; [apply w_s3_sink|]. st.
  - intros l w1 X. apply c_ret. intros p. cbn. symmetry. eapply s3_files; [|exact X]. reflexivity.
Qed.
Lemma w_sink_fs path w : aw w z0 (make_sink_fs E path) h_slot.
Proof.
  unfold make_sink_fs. cbv zeta. st; [st|]. st; [st|]. st; [destruct a0; [st|apply w_mkdirs]|]. st; [|apply c_ret; reflexivity]. eapply c_seq; [apply w_file_sink|]. intros f w1. apply c_ret. reflexivity.
Qed.
Lemma w_bucket b : pw (bucket_exists E b). Proof. intros w. unfold bucket_exists. repeat t_w1. Qed.
Lemma w_sink_s3 b k w : aw w z0 (make_sink_s3 E b k) h_slot.
Proof.
  unfold make_sink_s3. st; [st|]. st; [st|]. st; [apply w_bucket|]. st; [|apply c_ret; reflexivity]. st; [apply w_s3_sink|]. apply c_ret. reflexivity.
Qed.
Definition h_msinks (l : list (string * option sink)) (p : key) : Z := h_slots (map snd l) p.
Lemma w_meta_fs v base w : aw w z0 (make_metadata_sinks_fs E v base) h_msinks.
Proof.
  unfold make_metadata_sinks_fs. cbv zeta. st; [st|]. st; [st|]. st; [apply w_dirs|]. st; [st|]. st; [apply w_dirs|]. st; [st|].
  refine (c_mfold _ _ h_msinks _ _ _ [] _). intros acc p w1. unfold acct, bind. match goal with |- context [file_sink E ?q w1] => destruct (w_file_sink q w1) as (e & T & B); destruct (file_sink E q w1) as [w2 r] eqn:F end.
  assert (R : exists f, r = Ok f). { unfold file_sink, bind, getM, next_tick in F. cbn in F. destruct (_ && _); cbn in F; injection F as _ <-; eauto. }
  destruct R as (f & ->). cbn [fst snd job_done ret] in *. exists e. split; [auto|]. intros q. specialize (B q). unfold h_msinks. rewrite map_app, h_slots_app. cbn. unfold z0 in *. lia.
Qed.
Definition h_mmade (o : option (list (string * option sink))) (p : key) : Z := match o with Some l => h_msinks l p | None => 0 end.
Lemma s3_msinks b base l w acc p : (forall q, h_msinks acc q = 0) -> forall w' v, mfold (fun acc n => s <- s3_sink b (base ++ "/" ++ n)%string ;; ret (acc ++ [(n, Some (SS3 s))])%list) l acc w = (w', Ok v) -> h_msinks v p = 0.
Proof.
  revert acc w. induction l as [|k l IH]; intros acc w X w' v; cbn [mfold].
  - intros Y. injection Y as _ <-. auto.
  - unfold bind at 1 2. destruct (s3_sink b _ w) as [w1 [s|e| |]]; try discriminate. cbn [ret]. apply IH. intros q. unfold h_msinks in *. rewrite map_app, h_slots_app, X. reflexivity.
Qed.
Lemma w_meta_s3 v b base w : aw w z0 (make_metadata_sinks_s3 E v b base) h_mmade.
Proof.
  unfold make_metadata_sinks_s3. st; [st|]. st; [st|]. st; [apply w_bucket|]. st; [|apply c_ret; reflexivity]. st; [st|].
  eapply c_bind with (P := zq).
  - refine (c_mfold _ _ zq _ _ _ [] _). intros acc k w1. st; [apply w_s3_sink|]. st.
  - intros l w1 X. apply c_ret. intros p. cbn. symmetry. eapply s3_msinks; [|exact X]. reflexivity.
Qed.

(** *** one array *)
Notation aa := (acct (fun aw : AW => snd aw) (fun aw => h_writer (fst aw))).
Notation pa m := (accts (fun aw : AW => snd aw) (fun aw => h_writer (fst aw)) z0 m zq).
Lemma a_onWd {A} s c (m : M world A) Q : aw (snd s) c m Q -> aa s c (onWd m) Q.
Proof. destruct s as [a w]. intros (e & T & B). exists e. unfold onWd. cbn [fst snd] in *. destruct (m w) as [w' r]. cbn [fst snd] in *. split; [auto|]. intros p. specialize (B p). unfold z0 in *. lia. Qed.
Lemma a_getA : pa getA. Proof. intros [a w]. exists []. cbn. rewrite app_nil_r. split; [reflexivity|]. intros p. unfold z0, zq. lia. Qed.
Lemma a_modA f : (forall a p, h_writer (f a) p = h_writer a p) -> pa (modA f).
Proof. intros X [a w]. exists []. cbn. rewrite app_nil_r. split; [auto|]. intros p. rewrite X. unfold z0, zq. lia. Qed.
Lemma h_slots_upd l i o p : (i < List.length l)%nat -> h_slots (upd l i o) p = h_slots l p - h_slot (nth i l None) p + h_slot o p.
Proof.
  revert i. induction l as [|x l IH]; intros i X; cbn in X; [lia|]. destruct i as [|i].
  - cbn. lia.
  - change (upd (x :: l) (Datatypes.S i) o) with (x :: upd l i o). cbn. rewrite IH by lia. lia.
Qed.
Lemma a_on_sink {A} i (m : M KW A) : pk m -> pa (on_sink i m).
Proof.
  intros X [a w]. unfold on_sink, acct. cbn [fst snd]. destruct (nth i (a_sinks a) None) as [s|] eqn:N.
  - assert (L : (i < List.length (a_sinks a))%nat). { destruct (Nat.lt_ge_cases i (List.length (a_sinks a))); auto. rewrite nth_overflow in N by lia. discriminate. }
    destruct (X (s, w)) as (e & T & B). destruct (m (s, w)) as [[s' w'] r]. cbn [fst snd] in *. exists e. split; [auto|]. intros p. specialize (B p). unfold h_writer. cbn. rewrite h_slots_upd by auto. rewrite N. cbn. unfold z0, zq in *. destruct r; lia.
  - exists []. cbn. rewrite app_nil_r. split; [auto|]. intros p. unfold z0. lia.
Qed.
Lemma a_on_slot {A} i (m : M (option sink * world) A) s : (i < List.length (a_sinks (fst s)))%nat -> po m -> aa s z0 (on_slot i m) zq.
Proof.
  intros L X. destruct s as [a w]. unfold on_slot, acct. cbn [fst snd] in *. destruct (X (nth i (a_sinks a) None, w)) as (e & T & B). destruct (m (nth i (a_sinks a) None, w)) as [[s' w'] r]. cbn [fst snd] in *. exists e. split; auto.
  intros p. specialize (B p). unfold h_writer. cbn. rewrite h_slots_upd by auto. unfold z0, zq in *. destruct r; lia.
Qed.
Lemma a_on_meta {A} (m : M KW A) : pk m -> pa (on_meta m).
Proof.
  intros X [a w]. unfold on_meta, acct. cbn [fst snd]. destruct (a_meta a) as [s|] eqn:N.
  - destruct (X (s, w)) as (e & T & B). destruct (m (s, w)) as [[s' w'] r]. cbn [fst snd] in *. exists e. split; [auto|]. intros p. specialize (B p). unfold h_writer. cbn. rewrite N. cbn. unfold z0, zq in *. destruct r; lia.
  - exists []. cbn. rewrite app_nil_r. split; [auto|]. intros p. unfold z0. lia.
Qed.
Lemma a_on_meta_slot {A} (m : M (option sink * world) A) : po m -> pa (on_meta_slot m).
Proof.
  intros X [a w]. unfold on_meta_slot, acct. cbn [fst snd]. destruct (X (a_meta a, w)) as (e & T & B). destruct (m (a_meta a, w)) as [[s' w'] r]. cbn [fst snd] in *. exists e. split; auto.
  intros p. specialize (B p). unfold h_writer. cbn. unfold z0, zq in *. destruct r; lia.
Qed.
Ltac t_a1 := first [apply a_getA|apply a_modA; reflexivity|apply a_onWd; apply w_done|apply a_on_sink; apply k_write|apply a_on_meta; apply k_write|st].
Lemma a_compress : pa (compress_buffers E).
Proof.
  intros s. unfold compress_buffers. t_a1; [t_a1|]. destruct (c_comp (a_cfg a)) as [pr|]; [|t_a1]. t_a1; [t_a1|]. apply c_miter. intros i _ s'. t_a1; [t_a1|]. destruct (e_compress E pr a0 (nth i (a_bufs a1) [])); repeat t_a1.
Qed.
Lemma a_make_data s : a_sinks (fst s) = [] -> aa s z0 (make_data_sinks E) zq.
Proof.
  intros N. unfold make_data_sinks. eapply c_bind with (P := zq); [apply a_getA|]. intros a s' G. injection G as <- <-.
  eapply c_bind with (P := h_made); [apply a_onWd; destruct (c_bucket _); [apply w_data_s3|apply w_data_fs]|]. intros o s' X. destruct o as [l|]; [|apply c_ret; reflexivity].
  assert (F : a_sinks (fst s') = []). { unfold onWd in X. match type of X with (let '(_, _) := ?m in _) = _ => destruct m end. injection X as <- _. exact N. }
  destruct s' as [a w]. cbn in F. exists []. cbn. rewrite app_nil_r. split; [auto|]. intros p. unfold h_writer. cbn. rewrite F. cbn. unfold zq. lia.
Qed.
Lemma a_make_meta : pa (make_metadata_sink E).
Proof.
  intros s. unfold make_metadata_sink. eapply c_bind with (P := zq); [apply a_getA|]. intros a s' G. injection G as <- <-. destruct (a_meta (fst s)) eqn:N; [t_a1|].
  eapply c_bind with (P := h_slot); [apply a_onWd; destruct (c_bucket _); [apply w_sink_s3|apply w_sink_fs]|]. intros o s' X. destruct o as [l|]; [|apply c_ret; reflexivity].
  assert (F : a_meta (fst s') = None). { unfold onWd in X. match type of X with (let '(_, _) := ?m in _) = _ => destruct m end. injection X as <- _. exact N. }
  destruct s' as [a w]. cbn in F. exists []. cbn. rewrite app_nil_r. split; [auto|]. intros p. unfold h_writer. cbn. rewrite F. cbn. unfold zq. lia.
Qed.
Lemma a_write_meta : pa (write_array_metadata E).
Proof.
  intros s. unfold write_array_metadata. t_a1; [apply a_make_meta|]. t_a1; [|t_a1]. t_a1; [t_a1|]. cbv zeta. t_a1.
  - t_a1; [t_a1|]. destruct (dtype_v3 _); t_a1.
  - destruct (dtype_v2 _); [|t_a1]. t_a1; t_a1.
Qed.
Lemma a_v2_job i : pa (v2_job E i).
Proof. intros s. unfold v2_job. repeat t_a1. Qed.
Lemma a_flush_v2 : pa (flush_impl_v2 E).
Proof.
  intros s. unfold flush_impl_v2. eapply c_bind with (P := zq); [apply a_getA|]. intros a s' G. injection G as <- <-. destruct (a_sinks (fst s)) eqn:N; [|eapply c_bind with (P := zq); [t_a1|]; intros ? ? X; discriminate].
  eapply c_bind with (P := zq); [t_a1|]. intros ? ? X. injection X as <- <-. t_a1; [apply a_make_data; auto|]. t_a1; [|t_a1]. t_a1; [t_a1|]. t_a1; [t_a1|]. t_a1; [|t_a1]. apply c_miter. intros i _. apply a_v2_job.
Qed.
Lemma a_v3_chunk s b ci : pa (v3_chunk E s b ci).
Proof.
  intros w. unfold v3_chunk. t_a1; [t_a1|]. cbv zeta. t_a1; [repeat t_a1|]. destruct a0 as [[] [m|]]; repeat t_a1.
Qed.
Lemma a_v3_chunks s : forall cs b, pa (v3_chunks E s cs b).
Proof. induction cs as [|c cs IH]; intros b w; cbn [v3_chunks]; [t_a1|]. t_a1; [apply a_v3_chunk|]. destruct a as [[] [m|]]; try t_a1. apply IH. Qed.
Lemma a_v3_table s : pa (v3_table E s).
Proof. intros w. unfold v3_table. repeat t_a1. Qed.
Lemma a_v3_job tb cis s : pa (v3_job E tb cis s).
Proof.
  intros w. unfold v3_job. t_a1; [apply a_v3_chunks|]. t_a1; [destruct a as [[] [m|]]; [t_a1|destruct tb; [apply a_v3_table|t_a1]|t_a1|t_a1]|]. destruct a0 as [b [m|]]; apply a_onWd, w_done.
Qed.
Lemma a_flush_v3 : pa (flush_impl_v3 E).
Proof.
  intros s. unfold flush_impl_v3. eapply c_bind with (P := zq); [apply a_getA|]. intros a s' G. injection G as <- <-.
  t_a1; [destruct (a_sinks (fst s)) eqn:N; [apply a_make_data; auto|t_a1]|]. t_a1; [|t_a1]. t_a1; [t_a1|]. cbv zeta. t_a1; [t_a1|]. t_a1; [t_a1|]. t_a1; [t_a1|]. t_a1; [t_a1; t_a1|]. t_a1; [apply c_miter; intros i _; apply a_v3_job|]. repeat t_a1.
Qed.
Lemma a_flush_impl : pa (flush_impl E).
Proof. intros s. unfold flush_impl. t_a1; [t_a1|]. t_a1; [apply a_flush_v3|apply a_flush_v2]. Qed.
(** closing: slots before [k] are empty *)
Lemma slot_len i m a w a' w' (r : outcome bool) : on_slot i m (a, w) = ((a', w'), r) -> List.length (a_sinks a') = List.length (a_sinks a).
Proof.
  unfold on_slot. destruct (m _) as [[s' w1] r1]. intros X. injection X as <- _ _. cbn. unfold upd. destruct (Nat.lt_ge_cases i (List.length (a_sinks a))).
  - assert (Y : List.length (skipn i (a_sinks a)) = (List.length (a_sinks a) - i)%nat) by apply skipn_length. rewrite app_length, firstn_length. destruct (skipn i (a_sinks a)); cbn in *; lia.
  - rewrite firstn_all2, skipn_all2 by lia. rewrite app_nil_r. auto.
Qed.
Lemma nth_upd_gen {A} (l : list A) i j x d : (i < List.length l)%nat -> nth j (upd l i x) d = if Nat.eqb j i then x else nth j l d.
Proof.
  revert i j. induction l as [|y l IH]; intros i j X; cbn in X; [lia|]. destruct i as [|i].
  - cbn. destruct j; reflexivity.
  - change (upd (y :: l) (Datatypes.S i) x) with (y :: upd l i x). destruct j; cbn; [reflexivity|]. apply IH. lia.
Qed.
Lemma close_loop n k a w : (k + n = List.length (a_sinks a))%nat ->
  aa (a, w) z0 (miter (fun i => ok <- on_slot i (finalize_sink E) ;; expectM ok "Failed to finalize sink") (seq k n)) zq /\
  forall a' w', miter (fun i => ok <- on_slot i (finalize_sink E) ;; expectM ok "Failed to finalize sink") (seq k n) (a, w) = ((a', w'), Ok tt) ->
  (forall i, (i < k)%nat -> nth i (a_sinks a) None = None) -> forall i, nth i (a_sinks a') None = None.
Proof.
  revert k a w. induction n as [|n IH]; intros k a w L.
  - split; [cbn; t_a1|]. cbn. intros a' w' X. injection X as <- _. intros Y i. destruct (Nat.lt_ge_cases i k); auto. apply nth_overflow. lia.
  - cbn [seq miter]. assert (LK : (k < List.length (a_sinks a))%nat) by lia.
    assert (ST : forall a1 w1 u, (ok <- on_slot k (finalize_sink E) ;; expectM ok "Failed to finalize sink") (a, w) = ((a1, w1), Ok u) ->
      (Datatypes.S k + n = List.length (a_sinks a1))%nat /\ forall i, nth i (a_sinks a1) None = if Nat.eqb i k then None else nth i (a_sinks a) None).
    { intros a1 w1 u X. unfold bind in X. destruct (on_slot k (finalize_sink E) (a, w)) as [[a2 w2] r] eqn:O. pose proof (slot_len _ _ _ _ _ _ _ O) as SL. destruct r as [[]|m| |]; try discriminate. injection X as <- <-. split; [lia|].
      intros i. unfold on_slot in O. destruct (finalize_sink E _) as [[o' w3] r] eqn:F. injection O as <- _ ->. apply finalize_none in F. subst o'. cbn. rewrite nth_upd_gen by auto. reflexivity. }
    split.
    + eapply c_bind with (P := zq); [t_a1; [apply a_on_slot; [exact LK|apply o_finalize]|t_a1]|]. intros u [a1 w1] X. destruct (ST a1 w1 u X) as (Y & _). apply (IH (Datatypes.S k) a1 w1 Y).
    + intros a' w' X Y. unfold bind at 1 in X. destruct ((ok <- on_slot k (finalize_sink E) ;; expectM ok "Failed to finalize sink") (a, w)) as [[a1 w1] r] eqn:R. destruct r as [u|m| |]; try discriminate.
      destruct (ST a1 w1 u eq_refl) as (Z & N). apply (proj2 (IH (Datatypes.S k) a1 w1 Z) a' w' X). intros i Hi. rewrite N. destruct (Nat.eqb_spec i k); auto. apply Y. lia.
Qed.
Lemma no_slots l p : (forall i, nth i l None = None) -> h_slots l p = 0.
Proof. induction l as [|o l IH]; intros X; [reflexivity|]. cbn. pose proof (X 0%nat) as Y. cbn in Y. subst o. cbn. apply IH. intros i. exact (X (Datatypes.S i)). Qed.
Lemma a_close : pa (close_sinks E).
Proof.
  intros [a w]. unfold close_sinks. eapply c_bind with (P := zq); [apply a_getA|]. intros a0 s' G. injection G as <- <-. destruct (close_loop (List.length (a_sinks a)) 0 a w eq_refl) as (X & Y).
  eapply c_bind with (P := zq); [exact X|]. intros [] [a1 w1] R. specialize (Y a1 w1 R ltac:(intros; lia)). exists []. cbn. rewrite app_nil_r. split; [auto|]. intros p. unfold h_writer. cbn. rewrite (no_slots _ p Y). unfold z0, zq. lia.
Qed.
Lemma a_rollover : pa (rollover E).
Proof. intros s. unfold rollover. t_a1; [apply a_close|]. t_a1. Qed.
Lemma buffers_same a a' : make_buffers a = Ok a' -> a_sinks a' = a_sinks a /\ a_meta a' = a_meta a.
Proof. unfold make_buffers. destruct (number_of_chunks_in_memory _); try discriminate. destruct (bytes_per_chunk _ _); try discriminate. intros X. injection X as <-. auto. Qed.
Lemma a_rebuf s g : (forall a, a_sinks (g a) = a_sinks a /\ a_meta (g a) = a_meta a) -> aa s z0 (a <- getA ;; a' <- liftM (make_buffers a) ;; modA (fun _ => g a')) zq.
Proof.
  intros G. eapply c_bind with (P := zq); [t_a1|]. intros a s' X. injection X as <- <-. eapply c_bind with (P := zq); [t_a1|]. intros a' s' X. unfold liftM in X. injection X as <- X. apply buffers_same in X as [X1 X2]. destruct (G a') as [G1 G2].
  destruct s as [a w]. exists []. cbn in *. rewrite app_nil_r. split; [auto|]. intros p. unfold h_writer. cbn. rewrite G1, G2, X1, X2. unfold z0, zq. lia.
Qed.
Lemma a_flush : pa (flush E).
Proof.
  intros s. unfold flush. t_a1; [t_a1|]. t_a1; [t_a1|]. t_a1; [apply a_compress|]. t_a1; [apply a_flush_impl|]. t_a1; [t_a1|]. t_a1; [t_a1|]. t_a1; [t_a1|]. t_a1; [t_a1; [apply a_rollover|t_a1]|]. t_a1; [t_a1|]. t_a1; [t_a1; [t_a1; [apply a_write_meta|t_a1]|t_a1]|].
  apply (a_rebuf _ (fun a' => set_toflush a' 0)). auto.
Qed.
Lemma a_write_frame d : pa (write_frame E d).
Proof.
  intros s. unfold write_frame. eapply c_bind with (P := zq); [t_a1|]. intros a s' X. injection X as <- <-. eapply c_bind with (P := zq); [t_a1|]. intros nf s' X. injection X as <- X. t_a1; [t_a1|]. t_a1.
  - destruct (a_bufs (fst s)); [|t_a1]. apply (a_rebuf s (fun a => a)). auto.
  - t_a1; [t_a1|]. t_a1; [t_a1|]. destruct a1 as [bufs wr]. t_a1; [t_a1|]. t_a1; [t_a1|]. t_a1; [t_a1|]. t_a1; [t_a1|]. t_a1; [t_a1|]. t_a1; [t_a1; [apply a_flush|t_a1]|]. t_a1.
Qed.
(** destroying every slot *)
Lemma a_drop l : forall s, aa s (h_slots l) (miter (fun o => match o with Some s => onWd (sink_destroy s) | None => ret tt end) l) zq.
Proof.
  induction l as [|o l IH]; intros s; cbn [miter]; [apply c_ret; reflexivity|]. destruct o as [k|].
  - assert (X : exists w' e, sink_destroy k (snd s) = (w', Ok tt) /\ w_trace w' = w_trace (snd s) ++ e /\ forall p, bal e p = - h_sink k p).
    { destruct k as [f|k]; cbn [sink_destroy].
      - unfold file_close. destruct (f_open f) eqn:O; [|exists (snd s), []; rewrite app_nil_r; repeat split; intros p; cbn; unfold h_file; rewrite O; reflexivity].
        eexists _, [EClose (f_path f)]. repeat split. intros p. cbn. unfold h_file. rewrite O. lia.
      - exists (snd s), []. rewrite app_nil_r. repeat split. }
    destruct X as (w' & e & D & T & B). eapply c_seq with (P := fun _ => h_slots l); [|intros []; exact IH].
    exists e. unfold onWd. rewrite D. split; [exact T|]. intros p. cbn [fst snd h_slots h_slot]. rewrite B. lia.
  - eapply c_seq with (P := fun _ => h_slots l); [|intros []; exact IH]. apply c_ret. reflexivity.
Qed.
Lemma drop_ok l s : exists s', miter (fun o => match o with Some s => onWd (sink_destroy s) | None => ret tt end) l s = (s', Ok tt) /\ fst s' = fst s.
Proof.
  revert s. induction l as [|o l IH]; intros s; cbn [miter]; [eexists; split; reflexivity|]. unfold bind. destruct o as [k|]; cbn [ret].
  - unfold onWd at 1. destruct k as [f|k]; cbn [sink_destroy]; [unfold file_close; destruct (f_open f)|]; cbn; destruct (IH (fst s, snd s)) as (s' & X & Y); try (destruct s; exists s'; split; [exact X|exact Y]).
    match goal with |- context [miter _ l ?q] => destruct (IH q) as (s2 & X2 & Y2); exists s2; split; [exact X2|exact Y2] end.
  - apply IH.
Qed.
Lemma a_finalize s : aa s z0 (finalize_array E) zq /\ forall a' w', finalize_array E s = ((a', w'), Ok true) -> forall p, h_writer a' p = 0.
Proof.
  assert (FM : forall b s1, aa s1 z0 (if b : bool then
      ok2 <- on_meta_slot (finalize_sink E) ;; if ok2 then a <- getA ;; miter (fun o => match o with Some s => onWd (sink_destroy s) | None => ret tt end) (a_sinks a) ;;; modA (fun a => set_sinks (set_bufs a []) []) ;;; ret true else ret false
    else ret false) zq).
  { intros b s1. t_a1; [|t_a1]. eapply c_bind with (P := zq); [apply a_on_meta_slot, o_finalize|]. intros ok2 s2 _. t_a1; [|t_a1]. eapply c_bind with (P := zq); [t_a1|]. intros a0 s' X. injection X as <- <-.
    destruct (drop_ok (a_sinks (fst s2)) s2) as (s3 & X & Y). destruct (a_drop (a_sinks (fst s2)) s2) as (e & T & B). unfold acct, bind. rewrite X in *. cbn [fst snd modA ret] in *. exists e. split; [exact T|]. intros p. specialize (B p). rewrite Y in *. cbn. unfold h_writer in *. cbn. unfold z0, zq in *. lia. }
  unfold finalize_array. split.
  - t_a1; [t_a1|]. t_a1; [t_a1; [t_a1; [apply a_flush|t_a1]|t_a1]|]. apply FM.
  - intros a' w' X p. unfold bind at 1 2 in X. cbn [modA] in X. destruct (catchM (flush E ;;; ret true) (fun _ => ret false) _) as [s1 [[]|m| |]]; try discriminate. unfold bind at 1 in X.
    destruct (on_meta_slot (finalize_sink E) s1) as [s2 [[]|m| |]] eqn:F; try discriminate. assert (MN : a_meta (fst s2) = None).
    { destruct s1 as [a1 w1]. unfold on_meta_slot in F. destruct (finalize_sink E (a_meta a1, w1)) as [[o' w2] r] eqn:G. injection F as <- ->. apply finalize_none in G. exact G. }
    unfold bind at 1, getA in X. unfold bind at 1 in X. destruct (drop_ok (a_sinks (fst s2)) s2) as (s3 & Y & Z). rewrite Y in X. cbn in X. injection X as <- _. unfold h_writer. cbn. rewrite Z, MN. reflexivity.
Qed.

(** *** the stream *)
Notation at_ := (acct (fun tw : TW => snd tw) (fun tw => h_stream (fst tw))).
Notation pt m := (accts (fun tw : TW => snd tw) (fun tw => h_stream (fst tw)) z0 m zq).
Lemma t_onT {A} s c (m : M world A) Q : aw (snd s) c m Q -> at_ s c (onT m) Q.
Proof. destruct s as [a w]. intros (e & T & B). exists e. unfold onT. cbn [fst snd] in *. destruct (m w) as [w' r]. cbn [fst snd] in *. split; [auto|]. intros p. specialize (B p). unfold z0 in *. lia. Qed.
Lemma t_getT : pt getT. Proof. intros [a w]. exists []. cbn. rewrite app_nil_r. split; [reflexivity|]. intros p. unfold z0, zq. lia. Qed.
Lemma t_modT f : (forall a p, h_stream (f a) p = h_stream a p) -> pt (modT f).
Proof. intros X [a w]. exists []. cbn. rewrite app_nil_r. split; [auto|]. intros p. rewrite X. unfold z0, zq. lia. Qed.
Lemma h_writers_upd l i a0 a p : nth_error l i = Some a0 -> h_writers (upd l i a) p = h_writers l p - h_writer a0 p + h_writer a p.
Proof.
  revert i. induction l as [|x l IH]; intros i X; destruct i as [|i]; try discriminate.
  - injection X as ->. cbn. lia.
  - change (upd (x :: l) (Datatypes.S i) a) with (x :: upd l i a). cbn. rewrite (IH i) by exact X. lia.
Qed.
Lemma t_on_writer {A} i (m : M AW A) : pa m -> pt (on_writer i m).
Proof.
  intros X [s w]. unfold on_writer, acct. cbn [fst snd]. destruct (nth_error (s_writers s) i) as [a|] eqn:N.
  - destruct (X (a, w)) as (e & T & B). destruct (m (a, w)) as [[a' w'] r]. cbn [fst snd] in *. exists e. split; [auto|]. intros p. specialize (B p). unfold h_stream. cbn. rewrite (h_writers_upd _ _ a) by auto. unfold z0, zq in *. destruct r; lia.
  - exists []. cbn. rewrite app_nil_r. split; [auto|]. intros p. unfold z0. lia.
Qed.
Ltac t_t1 := first [apply t_getT|apply t_modT; reflexivity|st].
Lemma w_create_store s : pw (create_store E s).
Proof.
  intros w. unfold create_store. destruct (s_bucket s) as [b|].
  - st; [apply w_same; reflexivity|]. st.
    + match goal with |- acct _ _ ?w9 _ _ _ => generalize w9 end. induction (e_conns E) as [|n IH]; intros w0; cbn [open_connections]; [st|]. st; [apply w_request|]. match goal with x : (bool * Z)%type |- _ => destruct x as [b0 id] end. st; [destruct b0; [apply w_return|st]|apply IH].
    + st; [st|]. st; [repeat st|]. st; [st|]. st; [apply w_request|]. match goal with x : (bool * Z)%type |- _ => destruct x as [b0 id] end. repeat st.
  - st; [st|]. st; [destruct a; [apply w_rm|st]|]. st; [|repeat st]. st; [apply w_mkdirs|]. repeat st.
Qed.
Lemma map_upd {A B} (f : A -> B) l i x : map f (upd l i x) = upd (map f l) i (f x).
Proof. unfold upd. rewrite map_app, firstn_map, skipn_map. destruct (skipn i l); reflexivity. Qed.
Lemma t_write_metadata k d err : pt (write_metadata E k d err).
Proof.
  intros [s w]. unfold write_metadata, acct. cbn [fst snd]. destruct (find_key k (s_msinks s)) as [i|]; [|exists []; cbn; rewrite app_nil_r; split; [auto|]; intros p; unfold z0; lia].
  destruct (nth i (s_msinks s) (k, None)) as [k' [sk|]] eqn:N.
  - assert (L : (i < List.length (s_msinks s))%nat). { destruct (Nat.lt_ge_cases i (List.length (s_msinks s))); auto. rewrite nth_overflow in N by lia. discriminate. }
    assert (NS : nth i (map snd (s_msinks s)) None = Some sk) by (change (@None sink) with (snd (k, @None sink)); rewrite map_nth, N; reflexivity).
    destruct (k_write 0 d (sk, w)) as (e & T & B). destruct (sink_write E 0 d (sk, w)) as [[sk' w'] r]. cbn [fst snd] in *.
    assert (U : forall p, bal e p + h_stream s p + z0 p = h_stream (set_msinks s (upd (s_msinks s) i (k', Some sk'))) p).
    { intros p. unfold h_stream. cbn. rewrite map_upd, h_slots_upd by (rewrite map_length; auto). rewrite NS. cbn. specialize (B p). unfold z0, zq in *. destruct r; lia. }
    destruct r as [[]|m| |]; cbn; exists e; (split; [exact T|]); intros p; rewrite U; unfold zq; lia.
  - exists []. cbn. rewrite app_nil_r. split; [auto|]. intros p. unfold z0, zq. lia.
Qed.
Lemma t_base : pt (write_base_metadata E).
Proof. intros s. unfold write_base_metadata. t_t1; [t_t1|]. destruct (base_metadata a). apply t_write_metadata. Qed.
Lemma t_group : pt (write_group_metadata E).
Proof. intros s. unfold write_group_metadata. t_t1; [t_t1|]. destruct (group_metadata a). apply t_write_metadata. Qed.
Lemma t_external : pt (write_external_metadata E).
Proof. intros s. unfold write_external_metadata. t_t1; [t_t1|]. t_t1; [t_t1|]. apply t_write_metadata. Qed.
Lemma t_create_metadata s : s_msinks (fst s) = [] -> at_ s z0 (create_metadata_sinks E) zq.
Proof.
  intros N. unfold create_metadata_sinks. eapply c_bind with (P := zq); [apply t_getT|]. intros a s' G. injection G as <- <-. cbv zeta.
  eapply c_bind with (P := h_mmade).
  - apply t_onT. apply c_catch.
    + eapply c_seq with (P := h_mmade).
      * destruct (s_bucket (fst s)); [apply w_meta_s3|]. eapply c_seq; [apply w_meta_fs|]. intros l w. apply c_ret. reflexivity.
      * intros [l|] w; [apply c_ret; reflexivity|]. eapply c_ext; [|reflexivity|reflexivity]. cbn [h_mmade]. change (fun _ : string => 0) with z0. eapply (@c_seq _ _ _ _ _ _ _ zq); [apply w_err|]. intros ? ?. apply c_ret. reflexivity.
    + intros m w. eapply (@c_seq _ _ _ _ _ _ _ zq); [apply w_err|]. intros ? ?. apply c_ret. reflexivity.
  - intros o s' X. destruct o as [l|]; [|apply c_ret; reflexivity].
    assert (F : s_msinks (fst s') = []). { unfold onT in X. match type of X with (let '(_, _) := ?m in _) = _ => destruct m end. injection X as <- _. exact N. }
    destruct s' as [a w]. cbn in F. exists []. cbn. rewrite app_nil_r. split; [auto|]. intros p. unfold h_stream. cbn. rewrite F. cbn. unfold zq, h_msinks. lia.
Qed.
Lemma t_frame i d : pt (on_writer i (write_frame E d)).
Proof. apply t_on_writer. apply a_write_frame. Qed.
Lemma t_multi bpp : forall fuel i d nb wd ht, pt (multiscale_loop E bpp fuel i d nb wd ht).
Proof.
  induction fuel as [|f IH]; intros i d nb wd ht s; cbn [multiscale_loop]; [t_t1|]. t_t1; [t_t1|]. t_t1; [t_t1|]. destruct a0 as [[[px nb'] w'] h']. destruct (nth i (s_scaled a) None).
  - cbv zeta. t_t1; [apply t_frame|]. t_t1; [t_t1|]. t_t1; [t_t1|]. apply IH.
  - t_t1.
Qed.
Lemma t_multiscale d nb : pt (write_multiscale E d nb).
Proof. intros s. unfold write_multiscale. t_t1; [t_t1|]. t_t1; [|t_t1]. t_t1; [t_t1|]. t_t1; [t_t1|]. apply t_multi. Qed.
Lemma t_append_loop : forall fuel d pos wr, pt (append_loop E fuel d pos wr).
Proof.
  induction fuel as [|f IH]; intros d pos wr s; cbn [append_loop]; [t_t1|]. t_t1; [|t_t1]. t_t1; [t_t1|]. cbv zeta. t_t1.
  - t_t1; [t_t1|]. t_t1; [t_t1|]. t_t1; [|apply IH]. t_t1; [t_t1|]. t_t1; [apply t_frame|]. t_t1; [t_t1|]. t_t1; [t_t1|]. apply IH.
  - t_t1; t_t1; try t_t1.
    + t_t1. + apply IH. + apply t_frame. + t_t1; [t_t1|]. t_t1; [apply t_multiscale|]. apply IH.
Qed.
Lemma t_append d : pt (append E d).
Proof. intros s. unfold append. t_t1; [apply t_onT; apply w_get|]. t_t1; [t_t1|]. apply t_append_loop. Qed.
Lemma t_api_append d o : pt (api_append E d o).
Proof. intros s. unfold api_append. destruct d as [d|]; [|t_t1]. destruct o; [|t_t1]. t_t1; [|t_t1]. t_t1; [apply t_append|t_t1]. Qed.
Lemma t_appends l : pt (api_appends E l).
Proof. induction l as [|d l IH]; intros s; cbn [api_appends]; [t_t1|]. t_t1; [apply t_api_append|]. t_t1; [apply IH|]. t_t1. Qed.
(** *** creation *)
Definition wr (ws : list writer) (tw : TW) : Prop := s_writers (fst tw) = ws.
Lemma k_write_metadata ws k d err : pres (wr ws) any (write_metadata E k d err).
Proof.
  intros [s w] X. split; [|intros; exact I]. unfold wr, write_metadata in *. cbn [fst] in *. destruct (find_key k (s_msinks s)) as [i|]; [|exact X].
  destruct (nth i (s_msinks s) (k, None)) as [k' [sk|]]; [|exact X]. destruct (sink_write E 0 d (sk, w)) as [[sk' w'] r]. destruct r as [[]|m| |]; exact X.
Qed.
Lemma k_get ws : pres (wr ws) any getT. Proof. intros s X. split; [exact X|intros; exact I]. Qed.
Lemma k_expect ws b m : pres (wr ws) any (expectM b m). Proof. apply pres_expect. exact I. Qed.
Lemma k_base ws : pres (wr ws) any (write_base_metadata E).
Proof. unfold write_base_metadata. eapply pres_bind with (P := any); [apply k_get|]. intros s _. destruct (base_metadata s). apply k_write_metadata. Qed.
Lemma k_group ws : pres (wr ws) any (write_group_metadata E).
Proof. unfold write_group_metadata. eapply pres_bind with (P := any); [apply k_get|]. intros s _. destruct (group_metadata s). apply k_write_metadata. Qed.
Lemma k_external ws : pres (wr ws) any (write_external_metadata E).
Proof. unfold write_external_metadata. eapply pres_bind with (P := any); [apply k_get|]. intros s _. destruct (String.eqb _ _); [apply pres_ret; exact I|]. apply k_write_metadata. Qed.
Lemma k_create ws : pres (wr ws) any (create_metadata_sinks E).
Proof.
  unfold create_metadata_sinks. eapply pres_bind with (P := any); [apply k_get|]. intros s _. cbv zeta. eapply pres_bind with (P := any).
  - intros [s1 w1] X. split; [|intros; exact I]. unfold onT. match goal with |- context [let '(_, _) := ?m in _] => destruct m end. exact X.
  - intros [l|] _; [|apply pres_ret; exact I]. eapply pres_bind with (P := any); [|intros ? _; apply pres_ret; exact I]. intros [s1 w1] X. split; [exact X|intros; exact I].
Qed.
Lemma w_drop_list (l : list (string * option sink)) : forall w, exists w' e, miter (fun ks => match snd ks with Some k => sink_destroy k | None => ret tt end) l w = (w', Ok tt) /\ w_trace w' = w_trace w ++ e /\ forall p, bal e p = - h_msinks l p.
Proof.
  induction l as [|[k o] l IH]; intros w; cbn [miter].
  - exists w, []. rewrite app_nil_r. repeat split.
  - assert (X : exists w1 e1, match snd (k, o) with Some s => sink_destroy s | None => ret tt end w = (w1, Ok tt) /\ w_trace w1 = w_trace w ++ e1 /\ forall p, bal e1 p = - h_slot o p).
    { cbn [snd]. destruct o as [[f|s]|]; cbn [sink_destroy].
      - unfold file_close. destruct (f_open f) eqn:O.
        + eexists _, [EClose (f_path f)]. repeat split. intros p. cbn. unfold h_file. rewrite O. lia.
        + exists w, []. rewrite app_nil_r. repeat split. intros p. cbn. unfold h_file. rewrite O. reflexivity.
      - exists w, []. rewrite app_nil_r. repeat split.
      - exists w, []. rewrite app_nil_r. repeat split. }
    destruct X as (w1 & e1 & D1 & T1 & B1). destruct (IH w1) as (w2 & e2 & D2 & T2 & B2). exists w2, (e1 ++ e2). unfold bind. rewrite D1. split; [exact D2|]. split; [rewrite T2, T1, app_assoc; reflexivity|].
    intros p. rewrite bal_app, B1, B2. unfold h_msinks. cbn. lia.
Qed.
Lemma new_writer_0 v3 c a p : make_writer v3 c = Ok a -> h_writer a p = 0.
Proof. unfold make_writer. destruct v3; [destruct (number_of_shards (c_dims c)); try discriminate; cbn|]; intros X; injection X as <-; reflexivity. Qed.
Lemma pyramid_0 v3 p : forall fuel c l, pyramid fuel v3 c = Ok l -> h_writers l p = 0.
Proof.
  induction fuel as [|f IH]; intros c l; cbn [pyramid]; [discriminate|]. destruct (downsample c) as [[c' again]| | |]; try discriminate. cbn [obind].
  destruct (make_writer v3 c') as [a| | |] eqn:MW; try discriminate. cbn [obind]. pose proof (new_writer_0 _ _ _ p MW) as X. destruct again.
  - destruct (pyramid f v3 c') as [l'| | |] eqn:P; try discriminate. intros Y. injection Y as <-. cbn. rewrite X, (IH _ _ P). reflexivity.
  - intros Y. injection Y as <-. cbn. lia.
Qed.
Lemma writers_0 s l p : create_writers s = Ok l -> h_writers l p = 0.
Proof.
  unfold create_writers. destruct (make_writer (s_v3 s) (base_config s)) as [a| | |] eqn:MW; try discriminate. cbn [obind]. pose proof (new_writer_0 _ _ _ p MW) as X. destruct (s_multi s).
  - destruct (pyramid pyramid_fuel (s_v3 s) (base_config s)) as [l'| | |] eqn:P; try discriminate. intros Y. injection Y as <-. cbn. rewrite X, (pyramid_0 _ p _ _ _ P). reflexivity.
  - intros Y. injection Y as <-. cbn. lia.
Qed.
(** [acct] with nothing said about undefined behaviour and hanging *)
Definition weak {A} (w : world) (c : key -> Z) (m : M world A) (Q : A -> key -> Z) : Prop :=
  exists evs, w_trace (fst (m w)) = w_trace w ++ evs /\ match snd (m w) with Ok v => forall p : key, bal evs p + c p = Q v p | Throw _ => forall p : key, bal evs p + c p = 0 | _ => True end.
Lemma x_bind {A B} w c (P : A -> key -> Z) (Q : B -> key -> Z) m f : aw w c m P -> (forall a w', m w = (w', Ok a) -> weak w' (P a) (f a) Q) -> weak w c (bind m f) Q.
Proof.
  intros (e1 & T1 & B1) X. unfold weak, bind in *. unfold z0 in B1. destruct (m w) as [s1 [a|e| |]]; cbn [fst snd] in *; try (exists e1; split; [assumption|]; try exact I; intros p; specialize (B1 p); lia).
  destruct (X a s1 eq_refl) as (e2 & T2 & B2). exists (e1 ++ e2). rewrite T2, T1, app_assoc. split; [auto|]. destruct (snd (f a s1)); try exact I; intros p; rewrite bal_app; specialize (B1 p); specialize (B2 p); lia.
Qed.
Lemma w_new o w : weak w z0 (new_stream E o) h_stream.
Proof.
  assert (N : forall r, (forall v, r <> Ok v) -> weak w z0 (fun w => (w, r)) h_stream) by (intros r Hr; exists []; cbn; rewrite app_nil_r; split; [reflexivity|]; destruct r; try exact I; intros p; try reflexivity; destruct (Hr a eq_refl)).
  destruct o as [st|]; [|unfold new_stream, weak; destruct (validate_settings E w None) as [[]|e| |]; apply N; discriminate].
  assert (N2 : forall m : M world stream, weak w z0 m h_stream -> weak w z0 (fun w => match validate_settings E w (Some st) with Ok true => m w | Ok false => (w, Throw "Invalid Zarr stream settings") | Throw e => (w, Throw e) | UB => (w, UB) | Hang => (w, Hang) end) h_stream).
  { intros m Hm. unfold weak. destruct (validate_settings E w (Some st)) as [[]|e| |]; try exact Hm; apply N; discriminate. }
  refine (N2 _ _). clear N N2.
  eapply x_bind with (P := zq); [st|]. intros s w1 C. unfold liftM in C. injection C as <- C.
  eapply x_bind with (P := zq); [st|]. intros n w2 _. cbv zeta. eapply x_bind with (P := zq); [apply w_create_store|]. intros ok w5 _. eapply x_bind with (P := zq); [st|]. intros ? w6 _.
  eapply x_bind with (P := zq); [st|]. intros ws w3 CW. unfold liftM in CW. injection CW as <- CW.
  match goal with |- weak ?w4 _ (fun _ => let '(_, _) := ?m (?s', _) in _) _ => set (s7 := s'); set (m0 := m); generalize w4 end. intros w4.
  assert (S1 : s_msinks s7 = [] /\ s_writers s7 = ws).
  { assert (SM : s_msinks s = []). { unfold commit in C. destruct (make_dimensions _); try discriminate. cbn [obind] in C. injection C as <-. reflexivity. }
    unfold s7. cbn [s_multi set_writers set_fbuf]. destruct (s_multi s); split; try exact SM; reflexivity. }
  destruct S1 as [S1 S2].
  assert (A : acct (fun tw : TW => snd tw) (fun tw => h_stream (fst tw)) (s7, w4) z0 m0 zq).
  { unfold m0. t_t1; [apply t_create_metadata; exact S1|]. t_t1; [t_t1|]. t_t1; [apply t_base|]. t_t1; [t_t1|]. t_t1; [apply t_group|]. t_t1; [t_t1|]. t_t1; [apply t_external|]. t_t1. }
  assert (K : pres (wr ws) any m0).
  { unfold m0. repeat (eapply pres_bind with (P := any); [first [apply k_create|apply k_expect|apply k_base|apply k_group|apply k_external]|intros ? _]). apply k_expect. }
  destruct (K (s7, w4) S2) as [K1 _]. clear K. destruct A as (e & T & B). unfold weak. destruct (m0 (s7, w4)) as [[s' w'] r]. cbn [fst snd] in *.
  assert (H1 : forall p, h_stream s7 p = 0) by (intros p; unfold h_stream; rewrite S1, S2; cbn; apply (writers_0 _ _ p CW)).
  assert (H2 : forall p, h_writers (s_writers s') p = 0) by (intros p; rewrite K1; apply (writers_0 _ _ p CW)).
  assert (B0 : forall p, bal e p = h_stream s' p) by (intros p; specialize (B p); rewrite H1 in B; unfold z0, zq in B; destruct r; lia).
  destruct r as [u|m| |]; cbn [fst snd obind].
  - exists e. split; [exact T|]. intros p. rewrite B0. unfold z0, zq. lia.
  - destruct (w_drop_list (s_msinks s') w') as (w8 & e2 & D & T2 & B2). exists (e ++ e2). unfold drop_msinks. rewrite D. cbn [fst]. split; [rewrite T2, T, app_assoc; reflexivity|]. intros p. rewrite bal_app, B0, B2. unfold h_stream. rewrite H2. unfold h_msinks, z0, zq. lia.
  - exists e. split; [exact T|exact I].
  - exists e. split; [exact T|exact I].
Qed.
(** *** destruction *)
Lemma t_msinks n k s w : (k + n = List.length (s_msinks s))%nat ->
  at_ (s, w) z0 (all_ok (finalize_msink E) (seq k n)) zq /\
  forall s' w', all_ok (finalize_msink E) (seq k n) (s, w) = ((s', w'), Ok true) ->
  (forall i, (i < k)%nat -> nth i (map snd (s_msinks s)) None = None) -> forall p, h_slots (map snd (s_msinks s')) p = 0.
Proof.
  revert k s w. induction n as [|n IH]; intros k s w L.
  - split; [cbn; t_t1|]. cbn. intros s' w' X. injection X as <- _. intros Y p. apply no_slots. intros i. destruct (Nat.lt_ge_cases i k); auto. apply nth_overflow. rewrite map_length. lia.
  - cbn [seq all_ok]. assert (LK : (k < List.length (s_msinks s))%nat) by lia. destruct (nth_error (s_msinks s) k) as [[key o]|] eqn:NE; [|apply nth_error_None in NE; lia].
    assert (NS : nth k (map snd (s_msinks s)) None = o) by (apply nth_error_nth; rewrite nth_error_map, NE; reflexivity).
    assert (ST : forall s1 w1 b, finalize_msink E k (s, w) = ((s1, w1), Ok b) -> (Datatypes.S k + n = List.length (s_msinks s1))%nat /\ (b = true -> forall i, nth i (map snd (s_msinks s1)) None = if Nat.eqb i k then None else nth i (map snd (s_msinks s)) None)).
    { intros s1 w1 b X. unfold finalize_msink in X. rewrite NE in X. destruct (finalize_sink E (o, w)) as [[o' w2] r] eqn:F. injection X as <- <- ->. split.
      - cbn. unfold upd. rewrite app_length, firstn_length. pose proof (skipn_length k (s_msinks s)). destruct (skipn k (s_msinks s)); cbn in *; lia.
      - intros ->. apply finalize_none in F. subst o'. intros i. cbn. rewrite map_upd. rewrite nth_upd_gen by (rewrite map_length; auto). reflexivity. }
    split.
    + eapply c_bind with (P := zq).
      * unfold finalize_msink, acct. rewrite NE. destruct (o_finalize (o, w)) as (e & T & B). destruct (finalize_sink E (o, w)) as [[o' w'] r]. cbn [fst snd] in *. exists e. split; [auto|]. intros p. specialize (B p). unfold h_stream. cbn.
        rewrite map_upd, h_slots_upd by (rewrite map_length; auto). rewrite NS. cbn. unfold z0, zq in *. destruct r; lia.
      * intros b [s1 w1] X. destruct (ST s1 w1 b X) as (Y & _). t_t1; [|t_t1]. apply (IH (Datatypes.S k) s1 w1 Y).
    + intros s' w' X Y. unfold bind at 1 in X. destruct (finalize_msink E k (s, w)) as [[s1 w1] r] eqn:R. destruct r as [b|m| |]; try discriminate. destruct (ST s1 w1 b eq_refl) as (Z & N). destruct b; [|discriminate]. specialize (N eq_refl).
      apply (proj2 (IH (Datatypes.S k) s1 w1 Z) s' w' X). intros i Hi. rewrite N. destruct (Nat.eqb_spec i k); auto. apply Y. lia.
Qed.
Lemma no_writers l p : (forall i a, nth_error l i = Some a -> h_writer a p = 0) -> h_writers l p = 0.
Proof. induction l as [|a l IH]; intros X; [reflexivity|]. cbn. rewrite (X 0%nat a eq_refl). rewrite IH; [reflexivity|]. intros i a' Y. exact (X (Datatypes.S i) a' Y). Qed.
Lemma nth_error_upd {A} (l : list A) i j x : (i < List.length l)%nat -> nth_error (upd l i x) j = if Nat.eqb j i then Some x else nth_error l j.
Proof.
  revert i j. induction l as [|y l IH]; intros i j X; cbn in X; [lia|]. destruct i as [|i].
  - destruct j; reflexivity.
  - change (upd (y :: l) (Datatypes.S i) x) with (y :: upd l i x). destruct j; cbn; [reflexivity|]. apply IH. lia.
Qed.
Lemma t_arrays n k s w : (k + n = List.length (s_writers s))%nat ->
  at_ (s, w) z0 (all_ok (fun i => on_writer i (finalize_array E)) (seq k n)) zq /\
  forall s' w', all_ok (fun i => on_writer i (finalize_array E)) (seq k n) (s, w) = ((s', w'), Ok true) ->
  (forall i a p, (i < k)%nat -> nth_error (s_writers s) i = Some a -> h_writer a p = 0) -> s_msinks s' = s_msinks s /\ forall p, h_writers (s_writers s') p = 0.
Proof.
  revert k s w. induction n as [|n IH]; intros k s w L.
  - split; [cbn; t_t1|]. cbn. intros s' w' X. injection X as <- _. intros Y. split; [reflexivity|]. intros p. apply no_writers. intros i a Ha. apply (Y i a p); auto. pose proof (proj1 (nth_error_Some (s_writers s) i) ltac:(rewrite Ha; discriminate)). lia.
  - cbn [seq all_ok]. assert (LK : (k < List.length (s_writers s))%nat) by lia. destruct (nth_error (s_writers s) k) as [a0|] eqn:NE; [|apply nth_error_None in NE; lia].
    assert (ST : forall s1 w1 b, on_writer k (finalize_array E) (s, w) = ((s1, w1), Ok b) -> (Datatypes.S k + n = List.length (s_writers s1))%nat /\ (b = true -> s_msinks s1 = s_msinks s /\ exists a', nth_error (s_writers s1) k = Some a' /\ (forall p, h_writer a' p = 0) /\ forall i, i <> k -> nth_error (s_writers s1) i = nth_error (s_writers s) i)).
    { intros s1 w1 b X. unfold on_writer in X. rewrite NE in X. destruct (finalize_array E (a0, w)) as [[a' w2] r] eqn:F. injection X as <- <- ->. split.
      - cbn. unfold upd. rewrite app_length, firstn_length. pose proof (skipn_length k (s_writers s)). destruct (skipn k (s_writers s)); cbn in *; lia.
      - intros ->. split; [reflexivity|]. exists a'. cbn. split; [rewrite nth_error_upd by auto; rewrite Nat.eqb_refl; reflexivity|]. split; [exact (proj2 (a_finalize (a0, w)) a' w2 F)|]. intros i Hi. rewrite nth_error_upd by auto. destruct (Nat.eqb_spec i k); [congruence|reflexivity]. }
    split.
    + eapply c_bind with (P := zq); [apply t_on_writer; intros q; apply a_finalize|]. intros b [s1 w1] X. destruct (ST s1 w1 b X) as (Y & _). t_t1; [|t_t1]. apply (IH (Datatypes.S k) s1 w1 Y).
    + intros s' w' X Y. unfold bind at 1 in X. destruct (on_writer k (finalize_array E) (s, w)) as [[s1 w1] r] eqn:R. destruct r as [b|m| |]; try discriminate. destruct (ST s1 w1 b eq_refl) as (Z & N). destruct b; [|discriminate]. destruct (N eq_refl) as (M1 & a' & N1 & N2 & N3).
      destruct (proj2 (IH (Datatypes.S k) s1 w1 Z) s' w' X) as [R1 R2]; [|split; [congruence|exact R2]]. intros i a p Hi Ha. destruct (Nat.eq_dec i k) as [->|Hk]; [rewrite N1 in Ha; injection Ha as <-; apply N2|]. rewrite N3 in Ha by auto. apply (Y i a p); auto. lia.
Qed.
Lemma t_finalize s : at_ s z0 (finalize_stream E) zq /\ forall s' w', finalize_stream E s = ((s', w'), Ok true) -> forall p, h_stream s' p = 0.
Proof.
  unfold finalize_stream. split.
  - eapply c_bind with (P := zq); [apply t_group|]. intros ok s1 _. destruct ok; [|t_t1]. eapply c_bind with (P := zq); [t_t1|]. intros a s2 X. injection X as <- <-. destruct s1 as [s1 w1]. cbn [fst]. destruct (t_msinks (List.length (s_msinks s1)) 0 s1 w1 eq_refl) as (X & Y).
    eapply c_bind with (P := zq); [exact X|]. intros ok [s2 w2] R. destruct ok; [|t_t1]. specialize (Y s2 w2 R ltac:(intros; lia)).
    eapply c_bind with (P := zq); [exists []; cbn; rewrite app_nil_r; split; [reflexivity|]; intros p; unfold h_stream; cbn; rewrite Y; unfold z0, zq; lia|]. intros u s3 Z. assert (s3 = (set_msinks s2 [], w2)) as -> by (unfold modT in Z; cbn in Z; congruence). clear Z.
    eapply c_bind with (P := zq); [t_t1|]. intros a s4 Z. injection Z as <- <-. cbn [fst snd]. destruct (t_arrays (List.length (s_writers (set_msinks s2 []))) 0 (set_msinks s2 []) w2 eq_refl) as (X2 & Y2).
    eapply c_bind with (P := zq); [exact X2|]. intros ok [s5 w5] R2. destruct ok; [|t_t1]. destruct (Y2 s5 w5 R2 ltac:(intros; lia)) as (Y3 & Y4).
    exists []. cbn. rewrite app_nil_r. split; [reflexivity|]. intros p. unfold h_stream. cbn. rewrite Y3, Y4. cbn. unfold z0, zq. lia.
  - intros s' w' X p. unfold bind at 1 in X. destruct (write_group_metadata E s) as [s1 [[]|m| |]]; try discriminate. unfold bind at 1, getT in X. unfold bind at 1 in X.
    destruct (all_ok (finalize_msink E) _ s1) as [[s2 w2] [[]|m| |]] eqn:R; try discriminate. unfold bind at 1, modT in X. unfold bind at 1, getT in X. cbn [fst snd] in X. unfold bind at 1 in X.
    destruct (all_ok (fun i => on_writer i (finalize_array E)) _ _) as [[s5 w5] [[]|m| |]] eqn:R2; try discriminate. cbn in X. injection X as <- _.
    destruct (t_arrays (List.length (s_writers (set_msinks s2 []))) 0 (set_msinks s2 []) w2 eq_refl) as (_ & Y2). destruct (Y2 s5 w5 R2 ltac:(intros; lia)) as (Y3 & Y4). unfold h_stream. cbn. rewrite Y3. reflexivity.
Qed.
(** *** a session *)
(** what the append calls and destroy leave held is what the trace says is open *)
Lemma create_open st w0 w1 r : api_create E (Some st) w0 = (w1, Ok r) -> exists e, w_trace w1 = w_trace w0 ++ e /\ forall p, bal e p = match r with Some s => h_stream s p | None => 0 end.
Proof.
  unfold api_create, catchM, bind. destruct (w_new (Some st) w0) as (e & T & B). destruct (new_stream E (Some st) w0) as [w2 [s|m| |]]; cbn [fst snd ret] in *; intros X; try discriminate; injection X as <- <-; exists e; (split; [exact T|]); intros p; specialize (B p); unfold z0 in B; lia.
Qed.
Lemma appends_open calls s w s' w' r : api_appends E calls (s, w) = ((s', w'), r) -> exists e, w_trace w' = w_trace w ++ e /\ forall p, bal e p = h_stream s' p - h_stream s p.
Proof.
  intros X. destruct (t_appends calls (s, w)) as (e & T & B). rewrite X in *. cbn [fst snd] in *. exists e. split; [exact T|]. intros p. specialize (B p). unfold z0, zq in B. destruct r; lia.
Qed.
Lemma destroy_open s w s' w' r : api_destroy E (s, w) = ((s', w'), r) -> exists e, w_trace w' = w_trace w ++ e /\ forall p, bal e p = h_stream s' p - h_stream s p /\ (r = Ok true -> h_stream s' p = 0).
Proof.
  intros X. destruct (t_finalize (s, w)) as ((e & T & B) & Y). unfold api_destroy in X. rewrite X in *. cbn [fst snd] in *. exists e. split; [exact T|]. intros p. specialize (B p). unfold z0, zq in B. split; [destruct r; lia|]. intros ->. apply (Y s' w' eq_refl).
Qed.
Lemma session_open st calls w0 w' r : session E st calls w0 = (w', Ok r) -> match r with None => True | Some (_, d) => d = true end ->
  exists e, w_trace w' = w_trace w0 ++ e /\ forall p, bal e p = 0.
Proof.
  unfold session, bind at 1. destruct (api_create E (Some st) w0) as [w1 [[s1|]|m| |]] eqn:C; try discriminate.
  - destruct (create_open _ _ _ _ C) as (e1 & T1 & B1). unfold bind at 1. destruct (api_appends E calls (s1, w1)) as [[s2 w2] ra] eqn:A. destruct (appends_open _ _ _ _ _ _ A) as (e2 & T2 & B2). destruct ra as [rs|m| |]; try discriminate.
    unfold bind at 1. destruct (api_destroy E (s2, w2)) as [[s3 w3] rd] eqn:D. destruct (destroy_open _ _ _ _ _ D) as (e3 & T3 & B3). destruct rd as [d|m| |]; try discriminate. cbn [ret]. intros X Y. injection X as <- <-. subst d.
    exists (e1 ++ e2 ++ e3). rewrite T3, T2, T1, !app_assoc. split; [reflexivity|]. intros p. rewrite !bal_app. destruct (B3 p) as [B4 B5]. rewrite B1, B2, B4, (B5 eq_refl). lia.
  - destruct (create_open _ _ _ _ C) as (e1 & T1 & B1). intros X _. injection X as <- <-. exists e1. auto.
Qed.
End Open.
