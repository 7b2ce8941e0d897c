(** Two runs of the same program on worlds that agree on what the program looks at stay in agreement. *)
Require Import ZArith List Bool String Ascii Lia.
Require Import Verif.Base Verif.Dim Verif.Json Verif.World Verif.Writer.
Import ListNotations.
Open Scope string_scope. Open Scope list_scope. Open Scope Z_scope.

(** [m] does the same from related states, and a value it returns satisfies [Q] *)
Definition rel {S A} (R : S -> S -> Prop) (Q : A -> Prop) (m : M S A) : Prop :=
  forall s1 s2, R s1 s2 -> R (fst (m s1)) (fst (m s2)) /\ snd (m s1) = snd (m s2) /\ forall v, snd (m s1) = Ok v -> Q v.
Definition any {A} (_ : A) : Prop := True.

Section Rules.
Context {S : Type} (R : S -> S -> Prop).
Lemma rel_ret {A} (Q : A -> Prop) a : Q a -> rel R Q (ret a).
Proof. intros H s1 s2 HR. split; [auto|]. split; [auto|]. cbn. intros v X. injection X as <-. auto. Qed.
Lemma rel_throw {A} (Q : A -> Prop) e : rel R Q (throwM e).
Proof. intros s1 s2 HR. split; [auto|]. split; [auto|discriminate]. Qed.
Lemma rel_ub {A} (Q : A -> Prop) : rel R Q ubM.
Proof. intros s1 s2 HR. split; [auto|]. split; [auto|discriminate]. Qed.
Lemma rel_hang {A} (Q : A -> Prop) : rel R Q hangM.
Proof. intros s1 s2 HR. split; [auto|]. split; [auto|discriminate]. Qed.
Lemma rel_lift {A} (Q : A -> Prop) o : (forall v, o = Ok v -> Q v) -> rel R Q (liftM o).
Proof. intros H s1 s2 HR. split; [auto|]. split; [auto|exact H]. Qed.
Lemma rel_expect (Q : unit -> Prop) c e : Q tt -> rel R Q (expectM c e).
Proof. intros H. destruct c; [apply rel_ret; auto|apply rel_throw]. Qed.
Lemma rel_bind {A B} (P : A -> Prop) (Q : B -> Prop) m f : rel R P m -> (forall a, P a -> rel R Q (f a)) -> rel R Q (bind m f).
Proof.
  intros H1 H2 s1 s2 HR. unfold bind. destruct (H1 s1 s2 HR) as (X & Y & Z). destruct (m s1) as [s1' r1], (m s2) as [s2' r2]. cbn [fst snd] in *. subst r2.
  destruct r1 as [a|e| |]; cbn [fst snd]; try (split; [auto|split; [auto|discriminate]]). apply (H2 a (Z a eq_refl)). auto.
Qed.
Lemma rel_catch {A} (Q : A -> Prop) m h : rel R Q m -> (forall e, rel R Q (h e)) -> rel R Q (catchM m h).
Proof.
  intros H1 H2 s1 s2 HR. unfold catchM. destruct (H1 s1 s2 HR) as (X & Y & Z). destruct (m s1) as [s1' r1], (m s2) as [s2' r2]. cbn [fst snd] in *. subst r2.
  destruct r1 as [a|e| |]; cbn [fst snd]; try (split; [auto|split; [auto|solve [discriminate|auto]]]). apply (H2 e). auto.
Qed.
Lemma rel_weak {A} (P Q : A -> Prop) m : rel R P m -> (forall a, P a -> Q a) -> rel R Q m.
Proof. intros H1 H2 s1 s2 HR. destruct (H1 s1 s2 HR) as (X & Y & Z). split; [auto|]. split; auto. Qed.
Lemma rel_mod (Q : unit -> Prop) f : Q tt -> (forall s1 s2, R s1 s2 -> R (f s1) (f s2)) -> rel R Q (modM f).
Proof. intros H1 H2 s1 s2 HR. split; [apply H2; auto|]. split; [auto|]. cbn. intros v X. injection X as <-. auto. Qed.
Lemma rel_miter {A} (f : A -> M S unit) l : (forall a, In a l -> rel R any (f a)) -> rel R any (miter f l).
Proof.
  induction l as [|a l IH]; intros H; cbn; [apply rel_ret; exact Logic.I|]. eapply rel_bind; [apply H; left; reflexivity|]. intros [] _. apply IH. intros; apply H; right; auto.
Qed.
Lemma rel_mfold {A B} (Q : B -> Prop) (f : B -> A -> M S B) l : (forall b a, In a l -> Q b -> rel R Q (f b a)) -> forall b, Q b -> rel R Q (mfold f l b).
Proof.
  induction l as [|a l IH]; intros H b Hb; cbn; [apply rel_ret; auto|]. eapply rel_bind; [apply H; [left; reflexivity|auto]|]. intros b' Hb'. apply IH; auto. intros; apply H; auto; right; auto.
Qed.
(** a program that starts by looking at the state *)
Lemma rel_look {A} (Q : A -> Prop) (f : S -> M S A) : (forall s1 s2, R s1 s2 -> R (fst (f s1 s1)) (fst (f s2 s2)) /\ snd (f s1 s1) = snd (f s2 s2) /\ forall v, snd (f s1 s1) = Ok v -> Q v) -> rel R Q (bind getM f).
Proof. intros H s1 s2 HR. exact (H s1 s2 HR). Qed.
End Rules.

Section Indep.
(** [vp]: the paths looked at; [t1] and [t2]: what had happened before, in the two worlds *)
Variables (E : env) (vp : string -> Prop) (t1 t2 : list event).
Record Rw (w1 w2 : world) : Prop := mkRw {
  r_tick : w_tick w1 = w_tick w2;
  r_conns : w_conns w1 = w_conns w2;
  r_err : w_err w1 = w_err w2;
  r_same : exists l, w_trace w1 = t1 ++ l /\ w_trace w2 = t2 ++ l;
  r_dir : forall p, vp p -> dir_of E (w_trace w1) p = dir_of E (w_trace w2) p;
  r_file : forall p, vp p -> p <> ""%string -> file_of E (w_trace w1) p = file_of E (w_trace w2) p
}.
Notation rw := (rel Rw).
Lemma dir_of_snoc tr e p : dir_of E (tr ++ [e]) p = negb (String.eqb p "") && dir_step p (fold_left (dir_step p) tr (e_dir0 E p)) e.
Proof. unfold dir_of. rewrite fold_left_app. reflexivity. Qed.
Lemma r_emit e : rw any (emit e).
Proof.
  apply rel_mod; [exact I|]. intros w1 w2 [A1 A2 A3 A4 A5 A6]. constructor; cbn [w_trace w_tick w_conns w_err]; auto.
  - destruct A4 as (l & -> & ->). exists (l ++ [e]). rewrite !app_assoc. auto.
  - intros p Hp. specialize (A5 p Hp). rewrite !dir_of_snoc. unfold dir_of in A5. destruct (String.eqb p ""); [reflexivity|]. cbn [negb andb] in *. rewrite A5. reflexivity.
  - intros p Hp Hn. unfold file_of. rewrite !fold_left_app. cbn [fold_left]. specialize (A6 p Hp Hn). unfold file_of in A6. rewrite A6. reflexivity.
Qed.
Lemma r_seterr m : rw any (set_error m).
Proof. apply rel_mod; [exact I|]. intros w1 w2 [A1 A2 A3 A4 A5 A6]. constructor; auto. Qed.
Lemma r_next : rw any next_tick.
Proof. intros w1 w2 [A1 A2 A3 A4 A5 A6]. unfold next_tick. cbn [fst snd]. split; [constructor; cbn; auto|]. split; [rewrite A1; reflexivity|intros; exact I]. Qed.
Lemma r_isdir p : vp p -> rw any (fs_is_directory E p).
Proof. intros H w1 w2 W. unfold fs_is_directory. cbn [fst snd]. split; [auto|]. split; [rewrite (r_tick _ _ W), (r_dir _ _ W p H); reflexivity|intros; exact I]. Qed.
Lemma r_exists p : vp p -> rw any (fs_exists E p).
Proof. intros H w1 w2 W. unfold fs_exists. cbn [fst snd]. split; [auto|]. split; [|intros; exact I]. rewrite (r_tick _ _ W), (r_dir _ _ W p H). destruct (String.eqb_spec p "") as [->|N]; [reflexivity|]. rewrite (r_file _ _ W p H N). reflexivity. Qed.
Lemma r_task {A} (P : A -> Prop) (m : M world A) : rw P m -> rw P (in_task m).
Proof.
  intros H w1 w2 W. destruct (H w1 w2 W) as (X & Y & Z). unfold in_task. destruct (m w1) as [w1' r1], (m w2) as [w2' r2]. cbn [fst snd] in *. subst r2. destruct r1; cbn [fst snd] in *; (split; [auto|split; [auto|solve [auto|discriminate]]]).
Qed.
Lemma r_conn : rw any get_connection.
Proof.
  intros w1 w2 W. unfold get_connection. rewrite <- (r_conns _ _ W). destruct (w_conns w1); cbn [fst snd]; (split; [|split; [auto|intros; exact I]]); auto. destruct W. constructor; auto.
Qed.
Lemma r_return : rw any return_connection.
Proof. apply rel_mod; [exact I|]. intros w1 w2 W. pose proof (r_conns _ _ W). destruct W. constructor; cbn; auto. Qed.

Ltac st := first
  [ apply rel_ret; first [exact I|assumption|auto]
  | apply rel_throw | apply rel_ub | apply rel_hang
  | apply rel_expect; first [exact I|assumption|auto]
  | apply rel_lift; intros; first [exact I|assumption|auto]
  | apply r_emit | apply r_next | apply r_task | apply r_conn | apply r_return | apply r_seterr
  | apply r_isdir; assumption | apply r_exists; assumption
  | eapply rel_bind with (P := any); [|intros ? _] | match goal with |- rel _ _ (let '_ := ?x in _) => destruct x end
  | match goal with |- rel _ _ (if ?b then _ else _) => destruct b eqn:? end
  | apply rel_catch; [|intros ?] ].
Ltac sts := repeat st.

Lemma r_mkdirs p : vp p -> rw any (fs_create_directories E p).
Proof.
  intros H. unfold fs_create_directories. apply rel_look. intros w1 w2 W. rewrite (r_dir _ _ W p H). revert w1 w2 W.
  assert (X : forall b : bool, rw any (if b then ret false else k <- next_tick ;; if e_fault E k then ret false else emit (EMkdir p) ;;; ret true)) by (intros; sts).
  intros w1 w2 W. apply X. exact W.
Qed.
Lemma r_rm p : rw any (fs_remove_all E p).
Proof. unfold fs_remove_all. sts. Qed.
Lemma r_file_sink p : vp (parent_path p) -> rw any (file_sink E p).
Proof.
  intros H. unfold file_sink. apply rel_look. intros w1 w2 W. unfold parent_ok. rewrite (r_dir _ _ W _ H). revert w1 w2 W.
  assert (X : forall b : bool, rw any (k <- next_tick ;; if b && negb (e_fault E k) then emit (EOpen p) ;;; ret (mkfsink p true) else ret (mkfsink p false))) by (intros; sts).
  intros w1 w2 W. apply X. exact W.
Qed.
Lemma r_file_write f off d : rw any (file_write E f off d).
Proof. unfold file_write. sts. Qed.
Lemma r_file_flush f : rw any (file_flush f).
Proof. unfold file_flush. sts. Qed.
Lemma r_file_close f : rw any (file_close f).
Proof. unfold file_close. sts. Qed.
Lemma r_request : rw any (s3_request E).
Proof. unfold s3_request. sts. Qed.
Ltac rq := eapply rel_bind with (P := any); [apply r_request|intros [? ?] _].
Lemma r_put b k d : rw any (s3_put E b k d).
Proof. unfold s3_put. st; [st|]. st; [st|]. st; [st|]. rq. sts. Qed.
Lemma r_create b k : rw any (s3_create_multipart E b k).
Proof. unfold s3_create_multipart. st; [st|]. st; [st|]. rq. sts. Qed.
Lemma r_part b k i n d : rw any (s3_upload_part E b k i n d).
Proof. unfold s3_upload_part. do 4 (st; [st|]). rq. sts. Qed.
Lemma r_complete b k i l : rw any (s3_complete E b k i l).
Proof. unfold s3_complete. do 4 (st; [st|]). rq. sts. Qed.

(** *** an S3 sink *)
Definition Rs (x y : SW) : Prop := fst x = fst y /\ Rw (snd x) (snd y).
Notation rs := (rel Rs).
Lemma s_onW {A} (Q : A -> Prop) m : rw Q m -> rs Q (onW m).
Proof.
  intros H [s1 w1] [s2 w2] [X Y]. cbn [fst snd] in *. subst s2. unfold onW. destruct (H w1 w2 Y) as (A1 & A2 & A3). destruct (m w1), (m w2). cbn [fst snd] in *. split; [split; auto|]. split; auto.
Qed.
Lemma s_getS : rs any getS.
Proof. intros [s1 w1] [s2 w2] [X Y]. cbn [fst snd] in *. subst s2. split; [split; auto|]. split; [reflexivity|intros; exact I]. Qed.
Lemma s_putS s : rs any (putS s).
Proof. intros [s1 w1] [s2 w2] [X Y]. cbn [fst snd] in *. split; [split; auto|]. split; [reflexivity|intros; exact I]. Qed.
Ltac s1 := first [apply s_getS|apply s_putS|apply s_onW; first [apply r_conn|apply r_return|apply r_create|apply r_complete|apply rel_catch; [first [apply r_part|apply r_put]|intros; st]] |st].
Lemma s_create_upload : rs any (s3_create_upload E).
Proof. unfold s3_create_upload. repeat s1. Qed.
Lemma s_flush_part : rs any (s3_flush_part E).
Proof.
  unfold s3_flush_part. st; [s1|]. destruct (s_nbuf a =? 0); [st|]. st; [destruct (s_mp a); [st|apply s_create_upload]|]. st; [s1|]. st; [s1|]. destruct (s_mp a2) as [[id parts]|]; [|st]. cbv zeta. repeat s1.
Qed.
Lemma s_put_object : rs any (s3_put_object E).
Proof. unfold s3_put_object. repeat s1. Qed.
Lemma s_finalize : rs any (s3_finalize E).
Proof. unfold s3_finalize. st; [s1|]. st; [s1|]. destruct (s_mp a0) as [[id parts]|]; [|st]. repeat s1. Qed.
Lemma s_flush : rs any (s3_flush E).
Proof.
  unfold s3_flush. st; [s1|]. st; [|destruct a0; repeat s1].
  destruct (s_mp a).
  - st; [destruct (0 <? s_nbuf a); [apply s_flush_part|st]|destruct a0; [apply s_finalize|st]].
  - destruct (0 <? s_nbuf a); [apply s_put_object|st].
Qed.
Lemma s_write_loop : forall fuel d, rs any (s3_write_loop E fuel d).
Proof.
  induction fuel as [|f IH]; intros d; cbn [s3_write_loop]; [st|]. destruct (zlen d =? 0); [st|]. st; [s1|]. destruct (part_size <? s_nbuf a); [st|]. cbv zeta. st; [s1|].
  st; [match goal with |- rel _ _ (if ?b then _ else _) => destruct b end; [apply s_flush_part|st]|destruct a1; [apply IH|st]].
Qed.
Lemma s_write off d : rs any (s3_write E off d).
Proof. unfold s3_write. destruct (zlen d =? 0); [st|]. st; [s1|]. destruct (off <? s_nflush a); [st|]. st; [s1|]. apply s_write_loop. Qed.

(** *** sinks *)
Definition Rk (x y : KW) : Prop := fst x = fst y /\ Rw (snd x) (snd y).
Definition Ro (x y : option sink * world) : Prop := fst x = fst y /\ Rw (snd x) (snd y).
Notation rk := (rel Rk).
Notation ro := (rel Ro).
Lemma k_runF {A} s w1 w2 (m : M world A) : Rw w1 w2 -> rw any m ->
  Rk (fst (runF m (s, w1))) (fst (runF m (s, w2))) /\ snd (runF m (s, w1)) = snd (runF m (s, w2)).
Proof. intros W H. unfold runF. cbn [fst snd]. destruct (H w1 w2 W) as (A1 & A2 & _). destruct (m w1), (m w2). cbn [fst snd] in *. split; [split; auto|auto]. Qed.
Lemma k_runS {A} s w1 w2 x (m : M SW A) : Rw w1 w2 -> rs any m ->
  Rk (fst (runS s m (x, w1))) (fst (runS s m (x, w2))) /\ snd (runS s m (x, w1)) = snd (runS s m (x, w2)).
Proof.
  intros W H. unfold runS. cbn [fst snd]. destruct (H (s, w1) (s, w2) (conj eq_refl W)) as ((A1 & B1) & A2 & _). destruct (m (s, w1)) as [[? ?] ?], (m (s, w2)) as [[? ?] ?]. cbn [fst snd] in *. subst. split; [split; auto|auto].
Qed.
Lemma k_write off d : rk any (sink_write E off d).
Proof.
  intros [s w1] [s' w2] [X Y]. cbn [fst snd] in *. subst s'. unfold sink_write. cbn [fst]. destruct s as [f|s].
  - destruct (k_runF (SFile f) w1 w2 _ Y (r_file_write f off d)). split; [auto|]. split; [auto|intros; exact I].
  - destruct (k_runS s w1 w2 (SS3 s) _ Y (s_write off d)). split; [auto|]. split; [auto|intros; exact I].
Qed.
Lemma k_flush : rk any (sink_flush E).
Proof.
  intros [s w1] [s' w2] [X Y]. cbn [fst snd] in *. subst s'. unfold sink_flush. cbn [fst]. destruct s as [f|s].
  - destruct (k_runF (SFile f) w1 w2 _ Y (r_file_flush f)). split; [auto|]. split; [auto|intros; exact I].
  - destruct (k_runS s w1 w2 (SS3 s) _ Y s_flush). split; [auto|]. split; [auto|intros; exact I].
Qed.
Lemma r_destroy s : rw any (sink_destroy s).
Proof. destruct s as [f|s]; cbn [sink_destroy]; [apply r_file_close|st]. Qed.
Lemma o_finalize : ro any (finalize_sink E).
Proof.
  intros [o w1] [o' w2] [X Y]. cbn [fst snd] in *. subst o'. unfold finalize_sink. destruct o as [s|]; [|cbn [fst snd]; split; [split; auto|split; [auto|intros; exact I]]].
  destruct (k_flush (s, w1) (s, w2) (conj eq_refl Y)) as ((A1 & B1) & A2 & _). destruct (sink_flush E (s, w1)) as [[s1' w1'] r1], (sink_flush E (s, w2)) as [[s2' w2'] r2]. cbn [fst snd] in *. subst.
  destruct r2 as [[]|e| |]; cbn [fst snd]; try solve [split; [split; cbn; solve [auto]|split; [solve [auto]|intros; exact I]]].
  destruct (r_destroy s2' w1' w2' B1) as (C & _). destruct (sink_destroy s2' w1'), (sink_destroy s2' w2'). cbn [fst snd] in *. split; [split; auto|]. split; [auto|intros; exact I].
Qed.

(** *** sink creation: the paths looked at *)
Variable okp : string -> Prop.
Hypothesis okp_vp : forall p, okp p -> vp p.
Hypothesis okp_parent : forall p, okp p -> vp (parent_path p).
Hypothesis okp_sub : forall p x, okp p -> okp (p ++ "/" ++ x)%string.
Hypothesis okp_ext : forall p k, okp p -> okp (p ++ (if String.eqb p "" then dec k else "/" ++ dec k))%string.
Lemma r_done r : rw any (job_done r).
Proof. unfold job_done. destruct (fst r); st. Qed.
Lemma r_dir_job all d : vp d -> rw any (make_dir_job E all d).
Proof. intros H. unfold make_dir_job. repeat first [apply r_done|apply r_mkdirs; assumption|st]. Qed.
Lemma r_make_dirs ds : Forall vp ds -> rw any (make_dirs E ds).
Proof. intros H. unfold make_dirs. apply rel_mfold; [|exact I]. intros b d Hd _. apply r_dir_job. rewrite Forall_forall in H. auto. Qed.
Lemma r_make_files l : Forall (fun p => vp (parent_path p)) l -> rw any (make_files E l).
Proof.
  intros H. unfold make_files. apply rel_mfold; [|exact I]. intros acc p Hp _. rewrite Forall_forall in H. st; [apply r_file_sink; auto|]. st.
Qed.
Lemma r_paths_gen (P : string -> Prop) base ds parts mkdirs :
  (forall p k, P p -> P (p ++ (if String.eqb p "" then dec k else "/" ++ dec k))%string) -> (forall p x, P p -> P (p ++ "/" ++ x)%string) -> (mkdirs = true -> forall p, P p -> vp p) ->
  P base -> rw (Forall P) (make_data_sink_paths E base ds parts mkdirs).
Proof.
  intros HE HS HD HB. unfold make_data_sink_paths. eapply rel_bind with (P := any).
  - destruct mkdirs; [|st]. eapply rel_bind; [apply r_make_dirs; repeat constructor; auto|intros ? _; st].
  - intros _ _. eapply rel_bind with (P := Forall P).
    + apply rel_mfold; [|repeat constructor; auto]. intros ps d _ Hps. eapply rel_bind with (P := any); [st|intros n _]. eapply rel_bind with (P := any); [st|intros ? _]. cbv zeta.
      assert (X : Forall P (extend_paths ps n)). { apply Forall_forall. intros q Hq. apply in_flat_map in Hq as (p & Hp & Hq). apply in_map_iff in Hq as (k & <- & _). rewrite Forall_forall in Hps. auto. }
      eapply rel_bind with (P := any).
      * destruct mkdirs; [|st]. eapply rel_bind; [apply r_make_dirs; eapply Forall_impl; [|exact X]; auto|intros ? _; st].
      * intros _ _. apply rel_ret. exact X.
    + intros ps Hps. eapply rel_bind with (P := any); [st|intros n _]. eapply rel_bind with (P := any); [st|intros ? _]. apply rel_ret. apply Forall_forall. intros q Hq. apply in_flat_map in Hq as (p & Hp & Hq). apply in_map_iff in Hq as (k & <- & _). rewrite Forall_forall in Hps. auto.
Qed.
Lemma r_data_fs base ds parts : okp (strip_file base) -> rw any (make_data_sinks_fs E base ds parts).
Proof.
  intros H. unfold make_data_sinks_fs. cbv zeta. eapply rel_bind with (P := any); [st|intros ? _].
  eapply rel_bind with (P := fun o : option (list string) => match o with Some l => Forall okp l | None => True end).
  - apply rel_catch; [|intros; st; exact I]. eapply rel_bind; [apply r_paths_gen; eauto|]. intros l Hl. apply rel_ret. exact Hl.
  - intros [l|] Hl; [|st]. eapply rel_bind; [apply r_make_files; eapply Forall_impl; [|exact Hl]; auto|]. intros s Hs. apply rel_ret. exact I.
Qed.
Lemma r_s3_sink b k : rw any (s3_sink b k).
Proof. unfold s3_sink. sts. Qed.
Lemma r_data_s3 b base ds parts : rw any (make_data_sinks_s3 E b base ds parts).
Proof.
  unfold make_data_sinks_s3. st; [st|]. st; [eapply rel_weak; [apply (r_paths_gen (fun _ => True)); auto; discriminate|intros; exact I]|].
  destruct (String.eqb b ""); [st|]. st; [|st]. apply rel_mfold; [|exact I]. intros acc k _ _. st; [apply r_s3_sink|st].
Qed.
Lemma r_sink_fs path : okp (strip_file path) -> rw any (make_sink_fs E path).
Proof.
  intros H. pose proof (okp_parent _ H) as HP. unfold make_sink_fs. cbv zeta. st; [st|]. st; [st|]. st; [destruct a0; [st|apply r_mkdirs; auto]|]. destruct a1; [|st]. st; [apply r_file_sink; auto|st].
Qed.
Lemma r_bucket b : rw any (bucket_exists E b).
Proof. unfold bucket_exists. st; [st|]. st; [st|]. rq. sts. Qed.
Lemma r_sink_s3 b k : rw any (make_sink_s3 E b k).
Proof. unfold make_sink_s3. st; [st|]. st; [st|]. st; [apply r_bucket|]. destruct a1; [|st]. st; [apply r_s3_sink|st]. Qed.
Lemma r_meta_fs v base : vp (strip_file base) -> (forall x, okp (strip_file base ++ "/" ++ x)%string) -> rw any (make_metadata_sinks_fs E v base).
Proof.
  intros H1 H2. unfold make_metadata_sinks_fs. cbv zeta. st; [st|]. st; [st|]. st; [apply r_make_dirs; repeat constructor; auto|]. st; [st|].
  st; [apply r_make_dirs; apply Forall_forall; intros p Hp; apply in_map_iff in Hp as (x & <- & _); auto|]. st; [st|].
  apply rel_mfold; [|exact I]. intros acc n _ _. st; [apply r_file_sink; auto|]. st.
Qed.
Lemma r_meta_s3 v b base : rw any (make_metadata_sinks_s3 E v b base).
Proof.
  unfold make_metadata_sinks_s3. st; [st|]. st; [st|]. st; [apply r_bucket|]. destruct a1; [|st]. st; [st|]. st; [|st]. apply rel_mfold; [|exact I]. intros acc n _ _. st; [apply r_s3_sink|st].
Qed.

(** *** one array *)
Definition okcfg (c : config) : Prop := match c_bucket c with Some _ => True | None => forall x, okp (strip_file (c_root c ++ "/" ++ x)%string) end.
Definition okw (a : writer) : Prop := okcfg (a_cfg a).
Definition Ra (x y : AW) : Prop := fst x = fst y /\ Rw (snd x) (snd y) /\ okw (fst x).
Notation ra := (rel Ra).
Lemma a_onWd {A} (Q : A -> Prop) m : rw Q m -> ra Q (onWd m).
Proof.
  intros H [a w1] [a' w2] (X & Y & Z). cbn [fst snd] in *. subst a'. unfold onWd. cbn [fst snd]. destruct (H w1 w2 Y) as (A1 & A2 & A3). destruct (m w1), (m w2). cbn [fst snd] in *. split; [split; auto|]. split; auto.
Qed.
Lemma a_getA : ra okw getA.
Proof. intros [a w1] [a' w2] (X & Y & Z). cbn [fst snd] in *. subst a'. split; [split; auto|]. split; [reflexivity|]. cbn. intros v V. injection V as <-. auto. Qed.
Lemma a_modA f : (forall a, okw a -> okw (f a)) -> ra any (modA f).
Proof. intros H [a w1] [a' w2] (X & Y & Z). cbn [fst snd] in *. subst a'. split; [split; [reflexivity|split; cbn; auto]|]. split; [reflexivity|intros; exact I]. Qed.
Lemma a_on_sink {A} (Q : A -> Prop) i m : rk Q m -> ra Q (on_sink i m).
Proof.
  intros H [a w1] [a' w2] (X & Y & Z). cbn [fst snd] in *. subst a'. unfold on_sink. destruct (nth i (a_sinks a) None) as [s|]; [|split; [split; auto|split; [auto|discriminate]]].
  destruct (H (s, w1) (s, w2) (conj eq_refl Y)) as ((A1 & A2) & A3 & A4). destruct (m (s, w1)) as [[? ?] ?], (m (s, w2)) as [[? ?] ?]. cbn [fst snd] in *. subst. split; [split; auto|]. split; auto.
Qed.
Lemma a_on_slot {A} (Q : A -> Prop) i m : ro Q m -> ra Q (on_slot i m).
Proof.
  intros H [a w1] [a' w2] (X & Y & Z). cbn [fst snd] in *. subst a'. unfold on_slot.
  destruct (H (nth i (a_sinks a) None, w1) (nth i (a_sinks a) None, w2) (conj eq_refl Y)) as ((A1 & A2) & A3 & A4). destruct (m (nth i (a_sinks a) None, w1)) as [[? ?] ?], (m (nth i (a_sinks a) None, w2)) as [[? ?] ?]. cbn [fst snd] in *. subst. split; [split; auto|]. split; auto.
Qed.
Lemma a_on_meta {A} (Q : A -> Prop) m : rk Q m -> ra Q (on_meta m).
Proof.
  intros H [a w1] [a' w2] (X & Y & Z). cbn [fst snd] in *. subst a'. unfold on_meta. destruct (a_meta a) as [s|]; [|split; [split; auto|split; [auto|discriminate]]].
  destruct (H (s, w1) (s, w2) (conj eq_refl Y)) as ((A1 & A2) & A3 & A4). destruct (m (s, w1)) as [[? ?] ?], (m (s, w2)) as [[? ?] ?]. cbn [fst snd] in *. subst. split; [split; auto|]. split; auto.
Qed.
Lemma a_on_meta_slot {A} (Q : A -> Prop) m : ro Q m -> ra Q (on_meta_slot m).
Proof.
  intros H [a w1] [a' w2] (X & Y & Z). cbn [fst snd] in *. subst a'. unfold on_meta_slot.
  destruct (H (a_meta a, w1) (a_meta a, w2) (conj eq_refl Y)) as ((A1 & A2) & A3 & A4). destruct (m (a_meta a, w1)) as [[? ?] ?], (m (a_meta a, w2)) as [[? ?] ?]. cbn [fst snd] in *. subst. split; [split; auto|]. split; auto.
Qed.
Ltac ag := eapply rel_bind; [apply a_getA|intros ? ?].
Ltac bd := eapply rel_bind with (P := any); [|intros ? _].
Ltac a1 := first [apply a_modA; intros ? X; exact X | apply a_onWd, r_done | st].
Lemma a_compress : ra any (compress_buffers E).
Proof.
  unfold compress_buffers. ag. destruct (c_comp (a_cfg a)) as [pr|]; [|st]. bd; [st|]. apply rel_miter. intros i _. ag. match goal with |- context [e_compress E ?x ?y ?z] => destruct (e_compress E x y z) end; repeat a1.
Qed.
Lemma a_make_data : ra any (make_data_sinks E).
Proof.
  unfold make_data_sinks. ag. unfold okw, okcfg in H.
  assert (R : exists x, data_root a = (c_root (a_cfg a) ++ "/" ++ x)%string) by (unfold data_root; destruct (a_v3 a); [exists ("data/root/" ++ dec (c_level (a_cfg a)) ++ "/c" ++ dec (a_append a))%string|exists (dec (c_level (a_cfg a)) ++ "/" ++ dec (a_append a))%string]; reflexivity). destruct R as (x & R).
  bd.
  - apply a_onWd. rewrite R. destruct (c_bucket (a_cfg a)) as [b|]; [apply r_data_s3|apply r_data_fs; auto].
  - destruct a0 as [l|]; [|st]. bd; [|st]. apply a_modA. intros a' Y. exact Y.
Qed.
Lemma a_make_meta : ra any (make_metadata_sink E).
Proof.
  unfold make_metadata_sink. ag. destruct (a_meta a) eqn:Em; [st|]. unfold okw, okcfg in H.
  assert (R : exists x, metadata_path a = (c_root (a_cfg a) ++ "/" ++ x)%string) by (unfold metadata_path; destruct (a_v3 a); [exists ("meta/root/" ++ dec (c_level (a_cfg a)) ++ ".array.json")%string|exists (dec (c_level (a_cfg a)) ++ "/.zarray")%string]; reflexivity). destruct R as (x & R).
  bd.
  - apply a_onWd. rewrite R. destruct (c_bucket (a_cfg a)) as [b|]; [apply r_sink_s3|apply r_sink_fs; auto].
  - destruct a0 as [l|]; [|st]. bd; [|st]. apply a_modA. intros a' Y. exact Y.
Qed.
Lemma a_write_meta : ra any (write_array_metadata E).
Proof.
  unfold write_array_metadata. bd; [apply a_make_meta|]. destruct a; [|st]. ag. cbv zeta. destruct (a_v3 a).
  - bd; [st|]. destruct (dtype_v3 _); [apply a_on_meta, k_write|st].
  - destruct (dtype_v2 _); [|st]. bd; [st|]. apply a_on_meta, k_write.
Qed.
Lemma a_v2_job i : ra any (v2_job E i).
Proof. unfold v2_job. ag. bd; [|apply a_onWd, r_done]. apply rel_catch; [|intros; st]. bd; [apply a_on_sink, k_write|]. sts. Qed.
Lemma a_flush_v2 : ra any (flush_impl_v2 E).
Proof.
  unfold flush_impl_v2. ag. bd; [st|]. bd; [apply a_make_data|]. destruct a1; [|st]. ag. bd; [st|]. bd; [|st]. apply rel_miter. intros i _. apply a_v2_job.
Qed.
Lemma a_v3_chunk s b ci : ra any (v3_chunk E s b ci).
Proof.
  unfold v3_chunk. ag. cbv zeta. bd.
  - apply rel_catch; [|intros; st]. bd; [apply a_on_sink, k_write|st].
  - destruct a0 as [[] [m|]]; [st| |st|st]. apply rel_catch; [|intros; st]. repeat a1.
Qed.
Lemma a_v3_chunks s : forall cs b, ra any (v3_chunks E s cs b).
Proof. induction cs as [|c cs IH]; intros b; cbn [v3_chunks]; [st|]. bd; [apply a_v3_chunk|]. destruct a as [[] [m|]]; try st. apply IH. Qed.
Lemma a_v3_table s : ra any (v3_table E s).
Proof. unfold v3_table. ag. apply rel_catch; [|intros; st]. bd; [apply a_on_sink, k_write|st]. Qed.
Lemma a_v3_job tb cis s : ra any (v3_job E tb cis s).
Proof.
  unfold v3_job. bd; [apply a_v3_chunks|]. bd; [|apply a_onWd, r_done]. destruct a as [[] [m|]]; [st| |st|st]. destruct tb; [apply a_v3_table|st].
Qed.
Lemma a_flush_v3 : ra any (flush_impl_v3 E).
Proof.
  unfold flush_impl_v3. ag. bd; [destruct (a_sinks a); [apply a_make_data|st]|]. destruct a0; [|st]. ag. cbv zeta. bd; [st|]. bd; [st|]. bd; [st|].
  bd; [destruct (a_final a0); st|]. bd; [apply rel_miter; intros i _; apply a_v3_job|]. bd; [destruct a4; a1|st].
Qed.
Lemma a_flush_impl : ra any (flush_impl E).
Proof. unfold flush_impl. ag. destruct (a_v3 a); [apply a_flush_v3|apply a_flush_v2]. Qed.
Lemma a_close : ra any (close_sinks E).
Proof.
  unfold close_sinks. ag. bd.
  - apply rel_miter. intros i _. bd; [apply a_on_slot, o_finalize|st].
  - apply a_modA. intros a' X. exact X.
Qed.
Lemma a_rollover : ra any (rollover E).
Proof. unfold rollover. bd; [apply a_close|]. a1. Qed.
Lemma buffers_okw a a' : okw a -> make_buffers a = Ok a' -> okw a'.
Proof. unfold make_buffers. intros H. destruct (number_of_chunks_in_memory _); try discriminate. destruct (bytes_per_chunk _ _); try discriminate. intros X. injection X as <-. exact H. Qed.
Lemma a_flush : ra any (flush E).
Proof.
  unfold flush. ag. destruct (a_toflush a =? 0); [st|]. bd; [apply a_compress|]. bd; [apply a_flush_impl|]. bd; [st|]. ag. bd; [st|].
  bd; [match goal with |- rel _ _ (if ?b then _ else _) => destruct b end; [apply a_rollover|st]|]. ag. bd.
  - match goal with |- rel _ _ (if ?b then _ else _) => destruct b end; [|st]. bd; [apply a_write_meta|st].
  - ag. eapply rel_bind with (P := okw); [apply rel_lift; intros v V; eapply buffers_okw; eauto|]. intros a' Ha. apply a_modA. intros _ _. exact Ha.
Qed.
Lemma a_write_frame d : ra any (write_frame E d).
Proof.
  unfold write_frame. ag. bd; [st|]. match goal with |- rel _ _ (if ?b then _ else _) => destruct b end; [st|]. bd.
  - destruct (a_bufs a); [|st]. eapply rel_bind with (P := okw); [apply rel_lift; intros v V; eapply buffers_okw; eauto|]. intros a' Ha. apply a_modA. intros _ _. exact Ha.
  - ag. eapply rel_bind with (P := any); [st|intros [bufs wr] _]. bd; [a1|]. bd; [st|]. bd; [a1|]. ag. bd; [st|]. bd; [match goal with |- rel _ _ (if ?b then _ else _) => destruct b end; [apply a_flush|st]|st].
Qed.
Lemma a_finalize : ra any (finalize_array E).
Proof.
  unfold finalize_array. bd; [a1|]. bd.
  - apply rel_catch; [|intros; st]. bd; [apply a_flush|st].
  - match goal with |- rel _ _ (if ?b then _ else _) => destruct b end; [|st]. bd; [apply a_on_meta_slot, o_finalize|]. match goal with |- rel _ _ (if ?b then _ else _) => destruct b end; [|st]. ag. bd.
    + apply rel_miter. intros o Ho. destruct o as [s|]; [|st]. apply a_onWd, r_destroy.
    + bd; [|st]. apply a_modA. intros a' X. exact X.
Qed.
End Indep.
