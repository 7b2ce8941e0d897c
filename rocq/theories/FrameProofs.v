(** A calculus for invariants of the whole program: what is written where, and which errors are recorded. *)
Require Import ZArith List Bool String Ascii Lia.
Require Import Verif.Base Verif.Dim Verif.Json Verif.World Verif.Writer.
Import ListNotations.
Open Scope string_scope. Open Scope list_scope. Open Scope Z_scope.

(** [m] keeps [I], however it ends, and a value it returns satisfies [Q] *)
Definition pres {S A} (I : S -> Prop) (Q : A -> Prop) (m : M S A) : Prop := forall s, I s -> I (fst (m s)) /\ forall v, snd (m s) = Ok v -> Q v.
Definition any {A} (_ : A) : Prop := True.

Section Rules.
Context {S : Type} (I : S -> Prop).
Lemma pres_ret {A} (Q : A -> Prop) a : Q a -> pres I Q (ret a).
Proof. intros H s HI. split; auto. cbn. intros v X. injection X as <-. auto. Qed.
Lemma pres_throw {A} (Q : A -> Prop) e : pres I Q (throwM e).
Proof. intros s HI. split; auto. discriminate. Qed.
Lemma pres_ub {A} (Q : A -> Prop) : pres I Q ubM.
Proof. intros s HI. split; auto. discriminate. Qed.
Lemma pres_hang {A} (Q : A -> Prop) : pres I Q hangM.
Proof. intros s HI. split; auto. discriminate. Qed.
Lemma pres_lift {A} (Q : A -> Prop) o : (forall v, o = Ok v -> Q v) -> pres I Q (liftM o).
Proof. intros H s HI. split; auto. Qed.
Lemma pres_expect (Q : unit -> Prop) c e : Q tt -> pres I Q (expectM c e).
Proof. intros H. destruct c; [apply pres_ret; auto|apply pres_throw]. Qed.
Lemma pres_bind {A B} (P : A -> Prop) (Q : B -> Prop) m f : pres I P m -> (forall a, P a -> pres I Q (f a)) -> pres I Q (bind m f).
Proof.
  intros H1 H2 s HI. unfold bind. destruct (H1 s HI) as [X Y]. destruct (m s) as [s' [a|e| |]]; cbn in *; try (split; [auto|discriminate]). apply (H2 a (Y a eq_refl)). auto.
Qed.
Lemma pres_catch {A} (Q : A -> Prop) m h : pres I Q m -> (forall e, pres I Q (h e)) -> pres I Q (catchM m h).
Proof.
  intros H1 H2 s HI. unfold catchM. destruct (H1 s HI) as [X Y]. destruct (m s) as [s' [a|e| |]]; cbn in *; try (split; [auto|discriminate]); [split; auto|]. apply (H2 e). auto.
Qed.
Lemma pres_weak {A} (P Q : A -> Prop) m : pres I P m -> (forall a, P a -> Q a) -> pres I Q m.
Proof. intros H1 H2 s HI. destruct (H1 s HI). split; auto. Qed.
Lemma pres_mod (Q : unit -> Prop) f : Q tt -> (forall s, I s -> I (f s)) -> pres I Q (modM f).
Proof. intros H1 H2 s HI. split; [apply H2; auto|]. cbn. intros v X. injection X as <-. auto. Qed.
Lemma pres_get : pres I I getM.
Proof. intros s HI. split; auto. cbn. intros v X. injection X as <-. auto. Qed.
Lemma pres_miter {A} (f : A -> M S unit) l : (forall a, In a l -> pres I any (f a)) -> pres I any (miter f l).
Proof.
  induction l as [|a l IH]; intros H; cbn; [apply pres_ret; exact Logic.I|]. eapply pres_bind; [apply H; left; reflexivity|]. intros [] _. apply IH. intros; apply H; right; auto.
Qed.
Lemma pres_mfold {A B} (Q : B -> Prop) (f : B -> A -> M S B) l : (forall b a, In a l -> Q b -> pres I Q (f b a)) -> forall b, Q b -> pres I Q (mfold f l b).
Proof.
  induction l as [|a l IH]; intros H b Hb; cbn; [apply pres_ret; auto|]. eapply pres_bind; [apply H; [left; reflexivity|auto]|]. intros b' Hb'. apply IH; auto. intros; apply H; auto; right; auto.
Qed.
End Rules.

Section Frame.
Variables (E : env) (okdir okfile okrm : string -> Prop) (okobj : string -> string -> Prop) (okm : string -> Prop).
(** the events allowed *)
Definition okev (e : event) : Prop :=
  match e with
  | EMkdir p => okdir p
  | ERemoveAll p => okrm p
  | EOpen p | EWrite p _ _ | EFlush p | EClose p => okfile p
  | EPut b k _ | EMpCreate b k _ | EMpPart b k _ _ _ | EMpComplete b k _ _ => okobj b k
  end.
Definition Iw (w : world) : Prop := Forall okev (w_trace w) /\ okm (w_err w).
Hypothesis msg : forall m, m <> ""%string -> okm m.

Notation pw := (pres Iw).
Lemma p_emit e : okev e -> pw any (emit e).
Proof. intros H. apply pres_mod; [exact I|]. intros w [A B]. split; auto. cbn. apply Forall_app. auto. Qed.
Lemma p_err m : okm m -> pw any (set_error m).
Proof. intros H. apply pres_mod; [exact I|]. intros w [A B]. split; auto. Qed.
Lemma p_tick : pw any next_tick.
Proof. intros w [A B]. split; [split; auto|]. intros; exact I. Qed.
Lemma p_isdir p : pw any (fs_is_directory E p).
Proof. intros w H. unfold fs_is_directory. split; auto. intros; exact I. Qed.
Lemma p_exists p : pw any (fs_exists E p).
Proof. intros w H. unfold fs_exists. split; auto. intros; exact I. Qed.
Lemma p_task {A} (P : A -> Prop) (m : M world A) : pw P m -> pw P (in_task m).
Proof. intros H w HI. destruct (H w HI) as [H1 H2]. unfold in_task. destruct (m w) as [w' [a|e| |]]; cbn in *; auto; split; auto; intros; discriminate. Qed.
Lemma p_conn : pw any get_connection.
Proof. intros w [A B]. unfold get_connection. destruct (w_conns w); cbn; split; try (split; auto); intros; exact I. Qed.
Lemma p_return : pw any return_connection.
Proof. apply pres_mod; [exact I|]. intros w H. exact H. Qed.

Create HintDb fr.
Hint Resolve p_emit p_err p_tick p_isdir p_exists p_conn p_return I : fr.
(** take a program apart *)
Ltac st := first
  [ apply pres_ret; first [exact I|assumption|auto]
  | apply pres_throw | apply pres_ub | apply pres_hang
  | apply pres_expect; first [exact I|assumption|auto]
  | apply pres_lift; intros; first [exact I|assumption|auto]
  | apply p_emit | apply p_tick | apply p_isdir | apply p_exists | apply p_task | apply p_conn | apply p_return
  | apply p_err; apply msg; discriminate
  | eapply pres_bind with (P := any); [|intros ? _] | match goal with |- pres _ _ (let '_ := ?x in _) => destruct x end
  | match goal with |- pres _ _ (if ?b then _ else _) => destruct b eqn:? end
  | apply pres_catch; [|intros ?] ].
Ltac sts := repeat st.

Lemma p_mkdirs p : okdir p -> pw any (fs_create_directories E p).
Proof. intros H. unfold fs_create_directories. eapply pres_bind; [apply pres_get|intros w _]. sts. exact H. Qed.
Lemma p_rm p : okrm p -> pw any (fs_remove_all E p).
Proof. intros H. unfold fs_remove_all. sts. exact H. Qed.
Lemma p_file_sink p : okfile p -> pw (fun f => f_path f = p) (file_sink E p).
Proof. intros H. unfold file_sink. eapply pres_bind; [apply pres_get|intros w _]. sts. exact H. Qed.
Lemma p_file_write f off d : okfile (f_path f) -> pw any (file_write E f off d).
Proof. intros H. unfold file_write. sts. exact H. Qed.
Lemma p_file_flush f : okfile (f_path f) -> pw any (file_flush f).
Proof. intros H. unfold file_flush. sts. exact H. Qed.
Lemma p_file_close f : okfile (f_path f) -> pw any (file_close f).
Proof. intros H. unfold file_close. sts. exact H. Qed.
Lemma p_request : pw any (s3_request E).
Proof. unfold s3_request. sts. Qed.
Lemma p_put b k d : okobj b k -> pw any (s3_put E b k d).
Proof. intros H. unfold s3_put. sts. exact H. Qed.
Lemma p_create b k : okobj b k -> pw any (s3_create_multipart E b k).
Proof. intros H. unfold s3_create_multipart. sts. exact H. Qed.
Lemma p_part b k i n d : okobj b k -> pw any (s3_upload_part E b k i n d).
Proof. intros H. unfold s3_upload_part. sts. exact H. Qed.
Lemma p_complete b k i l : okobj b k -> pw any (s3_complete E b k i l).
Proof. intros H. unfold s3_complete. sts. exact H. Qed.

(** *** an S3 sink: its bucket and key never change *)
Definition Is (sw : SW) : Prop := Iw (snd sw) /\ okobj (s_bucket (fst sw)) (s_key (fst sw)).
Notation ps := (pres Is).
Lemma s_onW {A} (Q : A -> Prop) m : pw Q m -> ps Q (onW m).
Proof. intros H [s w] [X Y]. unfold onW. specialize (H w X). destruct (m w) as [w' r]. cbn in *. destruct H. split; [split; auto|auto]. Qed.
Lemma s_getS : ps (fun s => okobj (s_bucket s) (s_key s)) getS.
Proof. intros [s w] [X Y]. split; [split; auto|]. cbn. intros v Z. injection Z as <-. auto. Qed.
Lemma s_putS s : okobj (s_bucket s) (s_key s) -> ps any (putS s).
Proof. intros H [s0 w] [X Y]. split; [split; auto|]. intros; exact I. Qed.
Ltac sg := eapply pres_bind; [apply s_getS|intros ? ?].
Ltac s1 := first [apply s_putS; cbn; assumption | apply s_onW; first [apply p_conn|apply p_return|assumption]|st].
Lemma s_create_upload : ps any (s3_create_upload E).
Proof. unfold s3_create_upload. sg. repeat s1. apply s_onW, p_create; auto. Qed.
Lemma s_flush_part : ps any (s3_flush_part E).
Proof.
  unfold s3_flush_part. sg. destruct (s_nbuf a =? 0); [st|]. eapply pres_bind with (P := any); [destruct (s_mp a); [st|apply s_create_upload]|intros ? _]. eapply pres_bind with (P := any); [apply s_onW, p_conn|intros ? _]. sg. destruct (s_mp a2) as [[id parts]|]; [|st].
  eapply pres_bind with (P := any); [apply s_onW, pres_catch; [apply p_part; auto|intros; st]|intros ? _]. repeat s1.
Qed.
Lemma s_put_object : ps any (s3_put_object E).
Proof.
  unfold s3_put_object. sg. destruct (s_nbuf a =? 0); [st|]. eapply pres_bind; [apply s_onW, p_conn|intros ? _].
  eapply pres_bind with (P := any); [apply s_onW, pres_catch; [apply p_put; auto|intros; st]|intros ? _]. repeat s1.
Qed.
Lemma s_finalize : ps any (s3_finalize E).
Proof.
  unfold s3_finalize. eapply pres_bind; [apply s_onW, p_conn|intros ? _]. sg. destruct (s_mp a0) as [[id parts]|]; [|st].
  eapply pres_bind; [apply s_onW, p_complete; auto|intros ? _]. repeat s1.
Qed.
Lemma s_flush : ps any (s3_flush E).
Proof.
  unfold s3_flush. sg. eapply pres_bind with (P := any); [|intros ok _; destruct ok; [sg; repeat s1|st]].
  destruct (s_mp a).
  - eapply pres_bind with (P := any); [destruct (0 <? s_nbuf a); [apply s_flush_part|st]|intros b _; destruct b; [apply s_finalize|st]].
  - destruct (0 <? s_nbuf a); [apply s_put_object|st].
Qed.
Lemma s_write_loop : forall fuel d, ps any (s3_write_loop E fuel d).
Proof.
  induction fuel as [|f IH]; intros d; cbn [s3_write_loop]; [st|]. destruct (zlen d =? 0); [st|]. sg. destruct (part_size <? s_nbuf a); [st|]. cbv zeta. eapply pres_bind; [apply s_putS; exact H|intros ? _].
  eapply pres_bind with (P := any); [match goal with |- pres _ _ (if ?b then _ else _) => destruct b end; [apply s_flush_part|st]|intros b _; destruct b; [apply IH|st]].
Qed.
Lemma s_write off d : ps any (s3_write E off d).
Proof. unfold s3_write. destruct (zlen d =? 0); [st|]. sg. destruct (off <? s_nflush a); [st|]. eapply pres_bind; [apply s_putS; exact H|intros ? _]. apply s_write_loop. Qed.

(** *** sinks *)
Definition oksink (s : sink) : Prop := match s with SFile f => okfile (f_path f) | SS3 s => okobj (s_bucket s) (s_key s) end.
Definition okslot (o : option sink) : Prop := match o with Some s => oksink s | None => True end.
Definition Ik (kw : KW) : Prop := Iw (snd kw) /\ oksink (fst kw).
Definition Io (kw : option sink * world) : Prop := Iw (snd kw) /\ okslot (fst kw).
Notation pk := (pres Ik).
Notation po := (pres Io).
Lemma k_write off d : pk any (sink_write E off d).
Proof.
  intros [s w] [X Y]. unfold sink_write. cbn [fst]. destruct s as [f|s]; cbn in Y.
  - unfold runF. cbn [snd fst]. destruct (p_file_write f off d Y w X) as [A _]. destruct (file_write E f off d w). cbn in *. split; [split; auto|intros; exact I].
  - unfold runS. cbn [snd fst]. destruct (s_write off d (s, w) (conj X Y)) as [[A B] _]. destruct (s3_write E off d (s, w)) as [[s' w'] r]. cbn in *. split; [split; auto|intros; exact I].
Qed.
Lemma k_flush : pk any (sink_flush E).
Proof.
  intros [s w] [X Y]. unfold sink_flush. cbn [fst]. destruct s as [f|s]; cbn in Y.
  - unfold runF. cbn [snd fst]. destruct (p_file_flush f Y w X) as [A _]. destruct (file_flush f w). cbn in *. split; [split; auto|intros; exact I].
  - unfold runS. cbn [snd fst]. destruct (s_flush (s, w) (conj X Y)) as [[A B] _]. destruct (s3_flush E (s, w)) as [[s' w'] r]. cbn in *. split; [split; auto|intros; exact I].
Qed.
Lemma p_destroy s : oksink s -> pw any (sink_destroy s).
Proof. intros H. destruct s as [f|s]; cbn [sink_destroy]; [apply p_file_close; exact H|st]. Qed.
Lemma o_finalize : po any (finalize_sink E).
Proof.
  intros [o w] [X Y]. unfold finalize_sink. cbn [fst snd] in *. destruct o as [s|]; [|split; [split; auto|intros; exact I]].
  destruct (k_flush (s, w) (conj X Y)) as [[A B] _]. destruct (sink_flush E (s, w)) as [[s' w'] r]. cbn in A, B. destruct r as [[]|e| |]; try (split; [split; cbn; solve [auto]|intros; exact I]).
  destruct (p_destroy s' B w' A) as [A' _]. destruct (sink_destroy s' w') as [w2 r2]. cbn in *. split; [split; cbn; auto|intros; exact I].
Qed.

(** *** sink creation *)
Variable okp : string -> Prop.
Hypothesis okp_dir : forall p, okp p -> okdir p.
Hypothesis okp_file : forall p, okp p -> okfile p.
Hypothesis okp_parent : forall p, okp p -> okdir (parent_path p).
Hypothesis okp_sub : forall p x, okp p -> okp (p ++ "/" ++ x)%string.
Hypothesis okp_ext : forall p k, okp p -> okp (p ++ (if String.eqb p "" then dec k else "/" ++ dec k))%string.
Hypothesis okobj_sub : forall b p x, okobj b p -> okobj b (p ++ "/" ++ x)%string.
Hypothesis okobj_ext : forall b p k, okobj b p -> okobj b (p ++ (if String.eqb p "" then dec k else "/" ++ dec k))%string.
Lemma p_done m : okm m \/ m <> ""%string -> forall b, pw any (job_done (b, m)).
Proof. intros H b. unfold job_done. cbn [fst snd]. destruct b; [st|]. apply p_err. destruct H; auto. Qed.
Lemma p_done_true m : pw any (job_done (true, m)).
Proof. unfold job_done. cbn [fst snd]. st. Qed.
Lemma p_dir_job all d : okdir d -> pw any (make_dir_job E all d).
Proof.
  intros H. unfold make_dir_job. repeat first [apply p_done_true|apply p_done; right; discriminate|apply p_mkdirs; assumption|st].
Qed.
Lemma p_make_dirs ds : Forall okdir ds -> pw any (make_dirs E ds).
Proof. intros H. unfold make_dirs. apply pres_mfold; [|exact I]. intros b d Hd _. apply p_dir_job. rewrite Forall_forall in H. auto. Qed.
Lemma p_make_files l : Forall okfile l -> pw (Forall okslot) (make_files E l).
Proof.
  intros H. unfold make_files. apply pres_mfold; [|constructor]. intros acc p Hp Hacc. rewrite Forall_forall in H. eapply pres_bind; [apply p_file_sink; auto|]. intros f Hf. eapply pres_bind; [apply p_done_true|intros ? _].
  apply pres_ret. apply Forall_app. split; auto. repeat constructor. cbn. rewrite Hf. auto.
Qed.
Lemma p_paths_gen (P : string -> Prop) base ds parts mkdirs :
  (forall p k, P p -> P (p ++ (if String.eqb p "" then dec k else "/" ++ dec k))%string) -> (forall p x, P p -> P (p ++ "/" ++ x)%string) -> (mkdirs = true -> forall p, P p -> okdir p) ->
  P base -> pw (Forall P) (make_data_sink_paths E base ds parts mkdirs).
Proof.
  intros HE HS HD HB. unfold make_data_sink_paths. eapply pres_bind with (P := any).
  - destruct mkdirs; [|st]. eapply pres_bind; [apply p_make_dirs; repeat constructor; auto|intros ? _; st].
  - intros _ _. eapply pres_bind with (P := Forall P).
    + apply pres_mfold; [|repeat constructor; auto]. intros ps d _ Hps. eapply pres_bind with (P := any); [st|intros n _]. eapply pres_bind with (P := any); [st|intros ? _]. cbv zeta.
      assert (X : Forall P (extend_paths ps n)). { apply Forall_forall. intros q Hq. apply in_flat_map in Hq as (p & Hp & Hq). apply in_map_iff in Hq as (k & <- & _). rewrite Forall_forall in Hps. auto. }
      eapply pres_bind with (P := any).
      * destruct mkdirs; [|st]. eapply pres_bind; [apply p_make_dirs; eapply Forall_impl; [|exact X]; auto|intros ? _; st].
      * intros _ _. apply pres_ret. exact X.
    + intros ps Hps. eapply pres_bind with (P := any); [st|intros n _]. eapply pres_bind with (P := any); [st|intros ? _]. apply pres_ret. apply Forall_forall. intros q Hq. apply in_flat_map in Hq as (p & Hp & Hq). apply in_map_iff in Hq as (k & <- & _). rewrite Forall_forall in Hps. auto.
Qed.
Definition okslots (o : option (list (option sink))) : Prop := match o with Some l => Forall okslot l | None => True end.
Lemma p_data_fs base ds parts : okp (strip_file base) -> pw okslots (make_data_sinks_fs E base ds parts).
Proof.
  intros H. unfold make_data_sinks_fs. cbv zeta. eapply pres_bind with (P := any); [st|intros ? _].
  eapply pres_bind with (P := fun o : option (list string) => match o with Some l => Forall okp l | None => True end).
  - apply pres_catch; [|intros; st; exact I]. eapply pres_bind; [apply p_paths_gen; eauto|]. intros l Hl. apply pres_ret. exact Hl.
  - intros [l|] Hl; [|st; exact I]. eapply pres_bind; [apply p_make_files; eapply Forall_impl; [|exact Hl]; auto|]. intros s Hs. apply pres_ret. exact Hs.
Qed.
Lemma p_s3_sink b k : okobj b k -> pw (fun s => okobj (s_bucket s) (s_key s)) (s3_sink b k).
Proof. intros H. unfold s3_sink. eapply pres_bind with (P := any); [st|intros ? _]. eapply pres_bind with (P := any); [st|intros ? _]. apply pres_ret. exact H. Qed.
Lemma p_data_s3 b base ds parts : okobj b base -> pw okslots (make_data_sinks_s3 E b base ds parts).
Proof.
  intros H. unfold make_data_sinks_s3. eapply pres_bind with (P := any); [st|intros ? _]. eapply pres_bind with (P := Forall (okobj b)); [apply p_paths_gen; auto; discriminate|]. intros l Hl.
  destruct (String.eqb b ""); [st; exact I|]. eapply pres_bind with (P := Forall okslot).
  - apply pres_mfold; [|constructor]. intros acc k Hk Hacc. rewrite Forall_forall in Hl. eapply pres_bind; [apply p_s3_sink; auto|]. intros s Hs. apply pres_ret. apply Forall_app. split; auto; repeat constructor; auto.
  - intros s Hs. apply pres_ret. exact Hs.
Qed.
Lemma p_sink_fs path : okp (strip_file path) -> pw okslot (make_sink_fs E path).
Proof.
  intros H. unfold make_sink_fs. cbv zeta. eapply pres_bind with (P := any); [st|intros ? _]. eapply pres_bind with (P := any); [st|intros d _]. eapply pres_bind with (P := any); [destruct d; [st|apply p_mkdirs; auto]|]. intros ok _. destruct ok; [|st; exact I].
  eapply pres_bind; [apply p_file_sink; auto|]. intros f Hf. apply pres_ret. cbn. rewrite Hf. auto.
Qed.
Lemma p_bucket b : pw any (bucket_exists E b).
Proof. unfold bucket_exists. eapply pres_bind with (P := any); [st|intros ? _]. eapply pres_bind with (P := any); [st|intros ? _]. eapply pres_bind; [apply p_request|intros [ok id] _]. sts. Qed.
Lemma p_sink_s3 b k : okobj b k -> pw okslot (make_sink_s3 E b k).
Proof.
  intros H. unfold make_sink_s3. eapply pres_bind with (P := any); [st|intros ? _]. eapply pres_bind with (P := any); [st|intros ? _]. eapply pres_bind; [apply p_bucket|intros ok _]. destruct ok; [|st; exact I]. eapply pres_bind; [apply p_s3_sink; auto|]. intros s Hs. apply pres_ret. exact Hs.
Qed.
Definition okmsinks (l : list (string * option sink)) : Prop := Forall (fun x => okslot (snd x)) l.
Lemma p_meta_fs v base : okdir (strip_file base) -> (forall x, okp (strip_file base ++ "/" ++ x)%string) -> pw okmsinks (make_metadata_sinks_fs E v base).
Proof.
  intros H1 H2. unfold make_metadata_sinks_fs. cbv zeta. eapply pres_bind with (P := any); [st|intros ? _]. eapply pres_bind with (P := any); [st|intros names _]. eapply pres_bind; [apply p_make_dirs; repeat constructor; auto|intros ok _]. eapply pres_bind with (P := any); [st|intros ? _].
  eapply pres_bind; [apply p_make_dirs; apply Forall_forall; intros p Hp; apply in_map_iff in Hp as (x & <- & _); auto|intros ok2 _]. eapply pres_bind with (P := any); [st|intros ? _].
  apply pres_mfold; [|constructor]. intros acc n _ Hacc. eapply pres_bind; [apply p_file_sink; auto|]. intros f Hf. eapply pres_bind; [apply p_done_true|intros ? _]. apply pres_ret. apply Forall_app. split; auto. repeat constructor. cbn. rewrite Hf. auto.
Qed.
Lemma p_meta_s3 v b base : (forall x, okobj b (base ++ "/" ++ x)%string) -> pw (fun o => match o with Some l => okmsinks l | None => True end) (make_metadata_sinks_s3 E v b base).
Proof.
  intros H. unfold make_metadata_sinks_s3. eapply pres_bind with (P := any); [st|intros ? _]. eapply pres_bind with (P := any); [st|intros ? _]. eapply pres_bind; [apply p_bucket|intros ok _]. destruct ok; [|st; exact I]. eapply pres_bind with (P := any); [st|intros names _].
  eapply pres_bind with (P := okmsinks).
  - apply pres_mfold; [|constructor]. intros acc n _ Hacc. eapply pres_bind; [apply p_s3_sink; auto|]. intros s Hs. apply pres_ret. apply Forall_app. split; auto; repeat constructor; auto.
  - intros l Hl. apply pres_ret. exact Hl.
Qed.

(** *** one array *)
Definition okcfg (c : config) : Prop :=
  match c_bucket c with Some b => forall x, okobj b (c_root c ++ "/" ++ x)%string | None => forall x, okp (strip_file (c_root c ++ "/" ++ x)%string) end.
Definition okwriter (a : writer) : Prop := Forall okslot (a_sinks a) /\ okslot (a_meta a) /\ okcfg (a_cfg a) /\ (a_v3 a = true -> okm "").
Definition Ia (aw : AW) : Prop := Iw (snd aw) /\ okwriter (fst aw).
Notation pa := (pres Ia).
Lemma a_onWd {A} (Q : A -> Prop) m : pw Q m -> pa Q (onWd m).
Proof. intros H [a w] [X Y]. unfold onWd. cbn [fst snd] in *. specialize (H w X). destruct (m w) as [w' r]. cbn in *. destruct H. split; [split; auto|auto]. Qed.
Lemma a_getA : pa okwriter getA.
Proof. intros [a w] [X Y]. split; [split; auto|]. cbn. intros v Z. injection Z as <-. auto. Qed.
Lemma a_modA f : (forall a, okwriter a -> okwriter (f a)) -> pa any (modA f).
Proof. intros H [a w] [X Y]. split; [split; cbn; auto|]. intros; exact I. Qed.
Lemma okslots_upd l i o : Forall okslot l -> okslot o -> Forall okslot (upd l i o).
Proof.
  intros H1 H2. unfold upd. apply Forall_app. split.
  - apply Forall_forall. intros x Hx. rewrite Forall_forall in H1. apply H1. rewrite <- (firstn_skipn i l). apply in_app_iff. auto.
  - assert (X : Forall okslot (skipn i l)). { apply Forall_forall. intros x Hx. rewrite Forall_forall in H1. apply H1. rewrite <- (firstn_skipn i l). apply in_app_iff. auto. }
    destruct (skipn i l); constructor; auto. inversion X; auto.
Qed.
Lemma okslot_nth l i : Forall okslot l -> okslot (nth i l None).
Proof. intros H. destruct (nth_in_or_default i l None) as [X| ->]; [|exact I]. rewrite Forall_forall in H. auto. Qed.
Lemma a_on_sink {A} (Q : A -> Prop) i m : pk Q m -> pa Q (on_sink i m).
Proof.
  intros H [a w] [X (Y1 & Y2 & Y3 & Y4)]. cbn [fst snd] in *. unfold on_sink. pose proof (okslot_nth _ i Y1) as Z. destruct (nth i (a_sinks a) None) as [s|]; [|split; [split; [auto|split; auto]|discriminate]].
  specialize (H (s, w) (conj X Z)). destruct (m (s, w)) as [[s' w'] r]. cbn in *. destruct H as [[H1 H2] H3]. split; [|auto]. split; [auto|]. split; [apply okslots_upd; auto|]. auto.
Qed.
Lemma a_on_slot {A} (Q : A -> Prop) i m : po Q m -> pa Q (on_slot i m).
Proof.
  intros H [a w] [X (Y1 & Y2 & Y3 & Y4)]. cbn [fst snd] in *. unfold on_slot. pose proof (okslot_nth _ i Y1) as Z.
  specialize (H (nth i (a_sinks a) None, w) (conj X Z)). destruct (m (nth i (a_sinks a) None, w)) as [[s' w'] r]. cbn in *. destruct H as [[H1 H2] H3]. split; [|auto]. split; [auto|]. split; [apply okslots_upd; auto|]. auto.
Qed.
Lemma a_on_meta {A} (Q : A -> Prop) m : pk Q m -> pa Q (on_meta m).
Proof.
  intros H [a w] [X (Y1 & Y2 & Y3 & Y4)]. cbn [fst snd] in *. unfold on_meta. destruct (a_meta a) as [s|] eqn:Em; [|split; [split; [auto|split; [auto|split; [cbn; rewrite Em; auto|auto]]]|discriminate]].
  specialize (H (s, w) (conj X Y2)). destruct (m (s, w)) as [[s' w'] r]. cbn in *. destruct H as [[H1 H2] H3]. split; [|auto]. split; [auto|]. split; [auto|]. auto.
Qed.
Lemma a_on_meta_slot {A} (Q : A -> Prop) m : po Q m -> pa Q (on_meta_slot m).
Proof.
  intros H [a w] [X (Y1 & Y2 & Y3 & Y4)]. cbn [fst snd] in *. unfold on_meta_slot.
  specialize (H (a_meta a, w) (conj X Y2)). destruct (m (a_meta a, w)) as [[s' w'] r]. cbn in *. destruct H as [[H1 H2] H3]. split; [|auto]. split; [auto|]. split; [auto|]. auto.
Qed.
Ltac ag := eapply pres_bind; [apply a_getA|intros ? ?].
Ltac a1 := first [apply a_modA; intros ? X; exact X | apply a_onWd; first [apply p_done_true|apply p_done; right; discriminate] | st].
Lemma a_compress : pa any (compress_buffers E).
Proof.
  unfold compress_buffers. ag. destruct (c_comp (a_cfg a)) as [pr|]; [|st]. eapply pres_bind with (P := any); [st|intros bpp _]. apply pres_miter. intros i _. ag. destruct (e_compress E pr bpp (nth i (a_bufs a0) [])); repeat a1.
Qed.
Lemma str_cons_app (c : ascii) (s t : string) : (String c s ++ t)%string = String c (s ++ t). Proof. reflexivity. Qed.
Lemma a_make_data : pa any (make_data_sinks E).
Proof.
  unfold make_data_sinks. ag. destruct H as (H1 & H2 & H3 & H4). unfold okcfg in H3.
  assert (R : exists x, data_root a = (c_root (a_cfg a) ++ "/" ++ x)%string) by (unfold data_root; destruct (a_v3 a); [exists ("data/root/" ++ dec (c_level (a_cfg a)) ++ "/c" ++ dec (a_append a))%string|exists (dec (c_level (a_cfg a)) ++ "/" ++ dec (a_append a))%string]; reflexivity). destruct R as (x & R).
  eapply pres_bind with (P := okslots).
  - apply a_onWd. rewrite R. destruct (c_bucket (a_cfg a)) as [b|]; [apply p_data_s3; auto|apply p_data_fs; auto].
  - intros [l|] Hl; [|st]. eapply pres_bind with (P := any); [|intros ? _; st]. apply a_modA. intros a' (_ & Y). split; auto.
Qed.
Lemma a_make_meta : pa any (make_metadata_sink E).
Proof.
  unfold make_metadata_sink. ag. destruct (a_meta a) eqn:Em; [st|]. destruct H as (H1 & H2 & H3 & H4). unfold okcfg in H3.
  assert (R : exists x, metadata_path a = (c_root (a_cfg a) ++ "/" ++ x)%string) by (unfold metadata_path; destruct (a_v3 a); [exists ("meta/root/" ++ dec (c_level (a_cfg a)) ++ ".array.json")%string|exists (dec (c_level (a_cfg a)) ++ "/.zarray")%string]; reflexivity). destruct R as (x & R).
  eapply pres_bind with (P := okslot).
  - apply a_onWd. rewrite R. destruct (c_bucket (a_cfg a)) as [b|]; [apply p_sink_s3; auto|apply p_sink_fs; auto].
  - intros [l|] Hl; [|st]. eapply pres_bind with (P := any); [|intros ? _; st]. apply a_modA. intros a' (Y1 & Y2 & Y3). split; auto.
Qed.
Lemma a_write_meta : pa any (write_array_metadata E).
Proof.
  unfold write_array_metadata. eapply pres_bind with (P := any); [apply a_make_meta|intros ok _]. destruct ok; [|st]. ag. cbv zeta. destruct (a_v3 a).
  - eapply pres_bind with (P := any); [st|intros n _]. destruct (dtype_v3 _); [apply a_on_meta, k_write|st].
  - destruct (dtype_v2 _); [|st]. eapply pres_bind with (P := any); [st|intros n _]. apply a_on_meta, k_write.
Qed.
Lemma a_v2_job i : pa any (v2_job E i).
Proof.
  unfold v2_job. ag. eapply pres_bind with (P := fun r : bool * string => fst r = true \/ snd r <> ""%string).
  - apply pres_catch.
    + eapply pres_bind with (P := any); [apply a_on_sink, k_write|intros ok _]. eapply pres_bind with (P := any); [st|intros ? _]. apply pres_ret. auto.
    + intros e. apply pres_ret. right. discriminate.
  - intros [b m] Hr. apply a_onWd. destruct b; [apply p_done_true|]. apply p_done. right. destruct Hr; [discriminate|auto].
Qed.
Lemma a_flush_v2 : pa any (flush_impl_v2 E).
Proof.
  unfold flush_impl_v2. ag. eapply pres_bind with (P := any); [st|intros ? _]. eapply pres_bind; [apply a_make_data|intros ok _]. destruct ok; [|st]. ag. eapply pres_bind with (P := any); [st|intros ? _]. eapply pres_bind; [|intros ? _; st]. apply pres_miter. intros i _. apply a_v2_job.
Qed.
Lemma a_v3_chunk s b ci : pa any (v3_chunk E s b ci).
Proof.
  unfold v3_chunk. ag. cbv zeta. eapply pres_bind with (P := any).
  - apply pres_catch; [|intros; st]. eapply pres_bind with (P := any); [apply a_on_sink, k_write|intros ok _; st].
  - intros [[] [m|]] _; [st| |st|st]. apply pres_catch; [|intros; st]. repeat a1.
Qed.
Lemma a_v3_chunks s : forall cs b, pa any (v3_chunks E s cs b).
Proof.
  induction cs as [|c cs IH]; intros b; cbn [v3_chunks]; [st|]. eapply pres_bind; [apply a_v3_chunk|]. intros [[] [m|]] _; try st. apply IH.
Qed.
Lemma a_v3_table s : pa any (v3_table E s).
Proof.
  unfold v3_table. ag. apply pres_catch; [|intros; st]. eapply pres_bind with (P := any); [apply a_on_sink, k_write|intros ok _; st].
Qed.
Lemma a_v3_job tb cis s : okm ""%string -> pa any (v3_job E tb cis s).
Proof.
  intros H. unfold v3_job. eapply pres_bind; [apply a_v3_chunks|]. intros r _. eapply pres_bind with (P := any).
  - destruct r as [[] [m|]]; [st| |st|st]. destruct tb; [apply a_v3_table|st].
  - intros [b [m|]] _; apply a_onWd, p_done; cbn; auto. right. discriminate.
Qed.
Lemma a_flush_v3 : okm ""%string -> pa any (flush_impl_v3 E).
Proof.
  intros HM. unfold flush_impl_v3. ag. eapply pres_bind with (P := any); [destruct (a_sinks a); [apply a_make_data|st]|intros ok _]. destruct ok; [|st]. ag. cbv zeta. eapply pres_bind with (P := any); [st|intros n _]. eapply pres_bind with (P := any); [st|intros ? _]. eapply pres_bind with (P := any); [st|intros cis _].
  eapply pres_bind with (P := any); [destruct (a_final a0); st|intros roll _]. eapply pres_bind with (P := any); [apply pres_miter; intros i _; apply a_v3_job; auto|intros ? _]. eapply pres_bind with (P := any); [destruct roll; a1|intros ? _; st].
Qed.
Lemma a_flush_impl : pa any (flush_impl E).
Proof. unfold flush_impl. ag. destruct (a_v3 a) eqn:V; [apply a_flush_v3; apply H; auto|apply a_flush_v2]. Qed.
Lemma a_close : pa any (close_sinks E).
Proof.
  unfold close_sinks. ag. eapply pres_bind with (P := any).
  - apply pres_miter. intros i _. eapply pres_bind with (P := any); [apply a_on_slot, o_finalize|intros ok _; st].
  - intros ? _. apply a_modA. intros a' (X & Y). split; [constructor|auto].
Qed.
Lemma a_rollover : pa any (rollover E).
Proof. unfold rollover. eapply pres_bind; [apply a_close|intros ? _]. a1. Qed.
Lemma buffers_ok a a' : okwriter a -> make_buffers a = Ok a' -> okwriter a'.
Proof. unfold make_buffers. intros H. destruct (number_of_chunks_in_memory _); try discriminate. destruct (bytes_per_chunk _ _); try discriminate. intros X. injection X as <-. exact H. Qed.
Lemma a_flush : pa any (flush E).
Proof.
  unfold flush. ag. destruct (a_toflush a =? 0); [st|]. eapply pres_bind; [apply a_compress|intros ? _]. eapply pres_bind; [apply a_flush_impl|intros ok _]. eapply pres_bind with (P := any); [st|intros ? _]. ag. eapply pres_bind with (P := any); [st|intros roll _].
  eapply pres_bind with (P := any); [destruct roll; [apply a_rollover|st]|intros ? _]. ag. eapply pres_bind with (P := any).
  - match goal with |- pres _ _ (if ?b then _ else _) => destruct b end; [|st]. eapply pres_bind; [apply a_write_meta|intros ok2 _; st].
  - intros ? _. ag. eapply pres_bind with (P := okwriter); [apply pres_lift; intros v V; eapply buffers_ok; eauto|]. intros a' Ha. apply a_modA. intros _ _. exact Ha.
Qed.
Lemma a_write_frame d : pa any (write_frame E d).
Proof.
  unfold write_frame. ag. eapply pres_bind with (P := any); [st|intros nf _]. match goal with |- pres _ _ (if ?b then _ else _) => destruct b end; [st|]. eapply pres_bind with (P := any).
  - destruct (a_bufs a); [|st]. eapply pres_bind with (P := okwriter); [apply pres_lift; intros v V; eapply buffers_ok; eauto|]. intros a' Ha. apply a_modA. intros _ _. exact Ha.
  - intros ? _. ag. eapply pres_bind with (P := any); [st|intros [bufs wr] _]. eapply pres_bind with (P := any); [a1|intros ? _]. eapply pres_bind with (P := any); [st|intros ? _]. eapply pres_bind with (P := any); [a1|intros ? _]. ag. eapply pres_bind with (P := any); [st|intros sf _].
    eapply pres_bind with (P := any); [destruct sf; [apply a_flush|st]|intros ? _; st].
Qed.
Lemma a_finalize : pa any (finalize_array E).
Proof.
  unfold finalize_array. eapply pres_bind with (P := any); [a1|intros ? _]. eapply pres_bind with (P := any).
  - apply pres_catch; [|intros; st]. eapply pres_bind; [apply a_flush|intros ? _; st].
  - intros ok _. destruct ok; [|st]. eapply pres_bind; [apply a_on_meta_slot, o_finalize|intros ok2 _]. destruct ok2; [|st]. ag. eapply pres_bind with (P := any).
    + apply pres_miter. intros o Ho. destruct o as [s|]; [|st]. apply a_onWd, p_destroy. destruct H as (H & _). rewrite Forall_forall in H. exact (H _ Ho).
    + intros ? _. eapply pres_bind with (P := any); [|intros ? _; st]. apply a_modA. intros a' (X & Y). split; [constructor|auto].
Qed.
End Frame.
