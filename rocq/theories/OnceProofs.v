(** How often one object is uploaded by one array, whatever the environment does. *)
Require Import ZArith List Bool String Ascii Lia.
Require Import Verif.Base Verif.Spec Verif.Dim Verif.Limits Verif.Radix Verif.PathProofs Verif.Json Verif.World Verif.Writer Verif.LayoutProofs Verif.FrameProofs Verif.GridProofs Verif.OnceSpec.
Import ListNotations.
Open Scope string_scope. Open Scope list_scope. Open Scope Z_scope.

Section Obj.
Variables (E : env) (b k : string).
Definition cnt (w : world) : Z := uploads b k (w_trace w).
Definition up1 (e : event) : Z := if upload_of b k e then 1 else 0.
Lemma uploads_app l l' : uploads b k (l ++ l') = uploads b k l + uploads b k l'.
Proof. unfold uploads, zlen. rewrite filter_app, app_length. lia. Qed.
Lemma cnt_emit e w : cnt (fst (emit e w)) = cnt w + up1 e.
Proof. unfold cnt. cbn. rewrite uploads_app. f_equal. unfold uploads, up1. cbn. destruct (upload_of b k e); reflexivity. Qed.
Lemma up1_nonneg e : 0 <= up1 e <= 1. Proof. unfold up1. destruct (upload_of b k e); lia. Qed.

(** programs that upload nothing *)
Definition Qw (c : Z) (w : world) : Prop := cnt w = c.
Section Quiet.
Variable c : Z.
Notation pw := (pres (Qw c)).
Lemma q_emit e : up1 e = 0 -> pw any (emit e).
Proof. intros H w X. split; [|intros; exact I]. unfold Qw in *. rewrite cnt_emit. lia. Qed.
Lemma q_err m : pw any (set_error m).
Proof. intros w X. split; [exact X|intros; exact I]. Qed.
Lemma q_tick : pw any next_tick.
Proof. intros w X. split; [exact X|intros; exact I]. Qed.
Lemma q_isdir p : pw any (fs_is_directory E p).
Proof. intros w H. unfold fs_is_directory. split; auto. intros; exact I. Qed.
Lemma q_exists p : pw any (fs_exists E p).
Proof. intros w H. unfold fs_exists. split; auto. intros; exact I. Qed.
Lemma q_task {A} (P : A -> Prop) (m : M world A) : pw P m -> pw P (in_task m).
Proof. intros H w HI. destruct (H w HI) as [H1 H2]. unfold in_task. destruct (m w) as [w' [a|e| |]]; cbn in *; auto; split; auto; intros; discriminate. Qed.
Lemma q_conn : pw any get_connection.
Proof. intros w A. unfold get_connection. destruct (w_conns w); cbn; split; auto; intros; exact I. Qed.
Lemma q_return : pw any return_connection.
Proof. apply pres_mod; [exact I|]. intros w H. exact H. Qed.
Ltac st := first
  [ apply pres_ret; first [exact I|assumption|auto]
  | apply pres_throw | apply pres_ub | apply pres_hang
  | apply pres_expect; first [exact I|assumption|auto]
  | apply pres_lift; intros; first [exact I|assumption|auto]
  | apply q_emit; reflexivity | apply q_tick | apply q_isdir | apply q_exists | apply q_task | apply q_conn | apply q_return | apply q_err
  | eapply pres_bind with (P := any); [|intros ? _] | match goal with |- pres _ _ (let '_ := ?x in _) => destruct x end
  | match goal with |- pres _ _ (if ?b then _ else _) => destruct b eqn:? end
  | apply pres_catch; [|intros ?] ].
Ltac sts := repeat st.
Lemma q_mkdirs p : pw any (fs_create_directories E p).
Proof. unfold fs_create_directories. eapply pres_bind; [apply pres_get|intros w _]. sts. Qed.
Lemma q_rm p : pw any (fs_remove_all E p).
Proof. unfold fs_remove_all. sts. Qed.
Lemma q_file_sink p : pw any (file_sink E p).
Proof. unfold file_sink. eapply pres_bind; [apply pres_get|intros w _]. sts. Qed.
Lemma q_file_write f off d : pw any (file_write E f off d).
Proof. unfold file_write. sts. Qed.
Lemma q_file_flush f : pw any (file_flush f).
Proof. unfold file_flush. sts. Qed.
Lemma q_file_close f : pw any (file_close f).
Proof. unfold file_close. sts. Qed.
Lemma q_request : pw any (s3_request E).
Proof. unfold s3_request. sts. Qed.
Lemma q_create x y : pw any (s3_create_multipart E x y).
Proof. unfold s3_create_multipart. sts. Qed.
Lemma q_part x y i n d : pw any (s3_upload_part E x y i n d).
Proof. unfold s3_upload_part. sts. Qed.
Lemma q_destroy s : pw any (sink_destroy s).
Proof. destruct s as [f|s]; cbn [sink_destroy]; [apply q_file_close|st]. Qed.
Lemma q_done r : pw any (job_done r).
Proof. unfold job_done. destruct (fst r); st. Qed.
Lemma q_dir_job all d : pw any (make_dir_job E all d).
Proof. unfold make_dir_job. repeat first [apply q_done|apply q_mkdirs|st]. Qed.
Lemma q_make_dirs ds : pw any (make_dirs E ds).
Proof. unfold make_dirs. apply pres_mfold; [|exact I]. intros a d Hd _. apply q_dir_job. Qed.
Lemma q_bucket x : pw any (bucket_exists E x).
Proof. unfold bucket_exists. eapply pres_bind with (P := any); [st|intros ? _]. eapply pres_bind with (P := any); [st|intros ? _]. eapply pres_bind; [apply q_request|intros [ok id] _]. sts. Qed.

(** *** an S3 sink: its bucket and key never change; it uploads only when it is flushed *)
Variables (b' k' : string).
Definition own : Z := if String.eqb b b' && String.eqb k k' then 1 else 0.
Definition keyed (s : s3sink) : Prop := s_bucket s = b' /\ s_key s = k'.
Definition Qs (sw : SW) : Prop := Qw c (snd sw) /\ keyed (fst sw).
Notation ps := (pres Qs).
Lemma s_onW {A} (Q : A -> Prop) m : pw Q m -> ps Q (onW m).
Proof. intros H [s w] [X Y]. unfold onW. specialize (H w X). destruct (m w) as [w' r]. cbn in *. destruct H. split; [split; auto|auto]. Qed.
Lemma s_getS : ps keyed getS.
Proof. intros [s w] [X Y]. split; [split; auto|]. cbn. intros v Z. injection Z as <-. auto. Qed.
Lemma s_putS s : keyed s -> ps any (putS s).
Proof. intros H [s0 w] [X Y]. split; [split; auto|]. intros; exact I. Qed.
Ltac sg := eapply pres_bind; [apply s_getS|intros ? ?].
Ltac s1 := first [apply s_putS; assumption | apply s_onW; first [apply q_conn|apply q_return|assumption]|st].
Lemma s_create_upload : ps any (s3_create_upload E).
Proof. unfold s3_create_upload. sg. repeat s1. apply s_onW, q_create. Qed.
Lemma s_flush_part : ps any (s3_flush_part E).
Proof.
  unfold s3_flush_part. sg. destruct (s_nbuf a =? 0); [st|]. eapply pres_bind with (P := any); [destruct (s_mp a); [st|apply s_create_upload]|intros ? _]. eapply pres_bind with (P := any); [apply s_onW, q_conn|intros ? _]. sg. destruct (s_mp a2) as [[id parts]|]; [|st]. cbv zeta.
  eapply pres_bind with (P := any); [apply s_onW, pres_catch; [apply q_part|intros; st]|intros ? _]. repeat s1.
Qed.
Lemma s_write_loop : forall fuel d, ps any (s3_write_loop E fuel d).
Proof.
  induction fuel as [|f IH]; intros d; cbn [s3_write_loop]; [st|]. destruct (zlen d =? 0); [st|]. sg. destruct (part_size <? s_nbuf a); [st|]. cbv zeta. eapply pres_bind; [apply s_putS; exact H|intros ? _].
  eapply pres_bind with (P := any); [match goal with |- pres _ _ (if ?b then _ else _) => destruct b end; [apply s_flush_part|st]|intros x _; destruct x; [apply IH|st]].
Qed.
Lemma s_write off d : ps any (s3_write E off d).
Proof. unfold s3_write. destruct (zlen d =? 0); [st|]. sg. destruct (off <? s_nflush a); [st|]. eapply pres_bind; [apply s_putS; exact H|intros ? _]. apply s_write_loop. Qed.

(** returned true: one upload, of this object, or none; otherwise none *)
Definition Fs (v : bool) (sw : SW) : Prop := (if v then c <= cnt (snd sw) <= c + own else cnt (snd sw) = c) /\ keyed (fst sw).
Lemma own_nonneg : 0 <= own <= 1. Proof. unfold own. destruct (_ && _); lia. Qed.
Lemma hx_ps {A} (Q : A -> Prop) m : ps Q m -> hx Qs m (fun v s => Qs s /\ Q v) Qs.
Proof. apply hx_pres. Qed.
Lemma hx_ps' {A} (Q : A -> Prop) m : ps Q m -> hx Qs m (fun _ s => Qs s) Qs.
Proof. intros H. eapply hx_weak; [apply hx_pres; exact H|auto|intros v s [X _]; exact X|auto]. Qed.
Lemma hx_getS {B} (P : SW -> Prop) (f : s3sink -> M SW B) Q R : (forall s, hx (fun sw => P sw /\ fst sw = s) (f s) Q R) -> hx P (s <- getS ;; f s) Q R.
Proof. intros H [a w] X. unfold bind, getS. cbn. apply (H a (a, w)). auto. Qed.
(** the two requests that upload *)
Lemma put_spec d : hx (Qw c) (s3_put E b' k' d) (fun v w => if v then c <= cnt w <= c + own else cnt w = c) (Qw c).
Proof.
  unfold s3_put. do 3 (eapply hx_bind with (Q := fun _ => Qw c); [apply hx_expect; auto|intros _]). eapply hx_bind with (Q := fun _ => Qw c).
  - eapply hx_weak; [apply hx_pres, q_request|auto|intros v s [X _]; exact X|auto].
  - intros [ok i]. destruct ok; [|apply hx_ret; auto]. intros w X. unfold bind. cbn. unfold Qw in X. pose proof (cnt_emit (EPut b' k' d) w) as Y. cbn [fst emit modM] in Y. rewrite Y. unfold up1, own. cbn. destruct (_ && _); lia.
Qed.
Lemma complete_spec i d : hx (Qw c) (s3_complete E b' k' i d) (fun v w => if v then c <= cnt w <= c + own else cnt w = c) (Qw c).
Proof.
  unfold s3_complete. do 4 (eapply hx_bind with (Q := fun _ => Qw c); [apply hx_expect; auto|intros _]). eapply hx_bind with (Q := fun _ => Qw c).
  - eapply hx_weak; [apply hx_pres, q_request|auto|intros v s [X _]; exact X|auto].
  - intros [ok j]. destruct ok; [|apply hx_ret; auto]. intros w X. unfold bind. cbn. unfold Qw in X. pose proof (cnt_emit (EMpComplete b' k' i d) w) as Y. cbn [fst emit modM] in Y. rewrite Y. unfold up1, own. cbn. destruct (_ && _); lia.
Qed.
Lemma hx_onW {A} (P R : world -> Prop) (Q : A -> world -> Prop) m s0 : hx P m Q R -> hx (fun sw => P (snd sw) /\ fst sw = s0) (onW m) (fun v sw => Q v (snd sw) /\ fst sw = s0) (fun sw => R (snd sw) /\ fst sw = s0).
Proof. intros H [s w] [X Y]. specialize (H w X). unfold onW. destruct (m w) as [w' [v|e| |]]; cbn in *; auto. Qed.
Lemma fin_return v : hx (Fs v) (onW return_connection ;;; ret v) Fs Qs.
Proof. intros [s w] X. unfold bind, onW, return_connection, modM. cbn. exact X. Qed.
Lemma put_object_spec : hx Qs (s3_put_object E) Fs Qs.
Proof.
  unfold s3_put_object. apply hx_getS. intros s. destruct (s_nbuf s =? 0); [apply hx_ret; intros sw [[X Y] _]; split; [exact X|exact Y]|].
  eapply hx_bind with (Q := fun _ sw => Qs sw /\ fst sw = s).
  { intros [s0 w] [[X Y] Z]. cbn in Z. subst s0. pose proof (hx_onW (Qw c) (Qw c) (fun _ => Qw c) get_connection s) as H.
    assert (K : hx (Qw c) get_connection (fun _ => Qw c) (Qw c)) by (eapply hx_weak; [apply hx_pres, q_conn|auto|intros v t [U _]; exact U|auto]).
    specialize (H K (s, w) (conj X eq_refl)). destruct (onW get_connection (s, w)) as [[s1 w1] [v|e| |]]; cbn in *; destruct H as [H1 H2]; subst; (split; [split|]; auto) || split; auto. }
  intros _. eapply hx_bind with (Q := fun v sw => (if v : bool then c <= cnt (snd sw) <= c + own else cnt (snd sw) = c) /\ fst sw = s /\ keyed s).
  { intros [s0 w] [[X [Y1 Y2]] Z]. cbn in Z, X, Y1, Y2. subst s0. rewrite Y1, Y2.
    assert (K : hx (Qw c) (catchM (s3_put E b' k' (slice (s_buf s) 0 (s_nbuf s))) (fun _ => ret false)) (fun v w => if v then c <= cnt w <= c + own else cnt w = c) (Qw c)) by (eapply hx_catch; [apply put_spec|auto|intros e; apply hx_ret; auto]).
    pose proof (hx_onW _ _ _ _ s K (s, w) (conj X eq_refl)) as H. destruct (onW _ (s, w)) as [[s1 w1] [v|e| |]]; cbn in *; destruct H as [H1 H2]; subst s1; split; auto; try (split; auto); split; auto. }
  intros v. eapply hx_bind with (Q := fun _ => Fs v); [|intros _; apply fin_return].
  destruct v.
  - intros [s0 w] (X & Y & Z). cbn in *. split; auto.
  - apply hx_ret. intros [s0 w] (X & Y & Z). cbn in *. subst. split; auto.
Qed.
Lemma finalize_mp_spec : hx Qs (s3_finalize E) Fs Qs.
Proof.
  unfold s3_finalize. eapply hx_bind with (Q := fun _ => Qs); [eapply hx_ps'; apply s_onW, q_conn|intros _]. apply hx_getS. intros s. destruct (s_mp s) as [[id parts]|].
  2:{ intros sw [X _]. exact X. }
  eapply hx_bind with (Q := fun v sw => Fs v sw); [|intros v; apply fin_return].
  intros [s0 w] [[X [Y1 Y2]] Z]. cbn in Z, X, Y1, Y2. subst s0. rewrite Y1, Y2. pose proof (hx_onW _ _ _ _ s (complete_spec id parts) (s, w) (conj X eq_refl)) as H.
  destruct (onW _ (s, w)) as [[s1 w1] [v|e| |]]; cbn in *; destruct H as [H1 H2]; subst s1; split; auto; split; auto.
Qed.
Lemma Qs_Fs sw v : Qs sw -> Fs v sw.
Proof. intros [X Y]. split; [|exact Y]. unfold Qw in X. pose proof own_nonneg. destruct v; lia. Qed.
Lemma flush_s3_spec : hx Qs (s3_flush E) Fs Qs.
Proof.
  unfold s3_flush. apply hx_getS. intros s. eapply hx_bind with (Q := Fs).
  - eapply hx_pre; [|intros sw [X _]; exact X]. destruct (s_mp s) as [mp|].
    + eapply hx_bind with (Q := fun _ => Qs). { destruct (0 <? s_nbuf s); [eapply hx_ps'; apply s_flush_part|apply hx_ret; auto]. } intros v. destruct v; [apply finalize_mp_spec|apply hx_ret; intros; apply Qs_Fs; auto].
    + destruct (0 <? s_nbuf s); [apply put_object_spec|apply hx_ret; intros; apply Qs_Fs; auto].
  - intros v. destruct v; [|apply hx_ret; auto]. apply hx_getS. intros s'. intros [s0 w] [[X Y] Z]. cbn in *. subst s0. split; auto.
Qed.
End Quiet.

(** *** sinks: the uploads so far and those a sink may still make *)
Definition h_sink (s : sink) : Z := match s with SFile _ => 0 | SS3 s => own (s_bucket s) (s_key s) end.
Definition h_slot (o : option sink) : Z := match o with Some s => h_sink s | None => 0 end.
Definition hsum (l : list (option sink)) : Z := fold_right (fun o z => h_slot o + z) 0 l.
Lemma h_slot_nonneg o : 0 <= h_slot o. Proof. destruct o as [[f|s]|]; cbn; try lia. apply own_nonneg. Qed.
Lemma hsum_nonneg l : 0 <= hsum l. Proof. induction l as [|o l IH]; cbn; [lia|]. pose proof (h_slot_nonneg o). unfold hsum in IH. lia. Qed.
Lemma hsum_app l l' : hsum (l ++ l') = hsum l + hsum l'. Proof. unfold hsum. induction l as [|o l IH]; [reflexivity|]. cbn [app fold_right]. rewrite IH. lia. Qed.
Lemma hsum_upd l i o : hsum (upd l i o) + h_slot (nth i l None) <= hsum l + h_slot o.
Proof.
  revert i. induction l as [|x l IH]; intros i.
  - unfold upd. rewrite firstn_nil, skipn_nil. cbn. destruct i; cbn; pose proof (h_slot_nonneg o); lia.
  - destruct i as [|i]; [unfold upd; cbn; lia|]. change (upd (x :: l) (S i) o) with (x :: upd l i o). cbn. specialize (IH i). unfold hsum in IH. lia.
Qed.
Lemma upd_nil {A} (l : list A) i x : upd l i x = [] <-> l = [].
Proof. rewrite <- !length_zero_iff_nil, upd_length. tauto. Qed.
Section N.
Variable N : Z.
Definition Kw (kw : KW) : Prop := cnt (snd kw) + h_sink (fst kw) <= N.
Definition Ow (ow : option sink * world) : Prop := cnt (snd ow) + h_slot (fst ow) <= N.
Lemma k_write off d : pres Kw any (sink_write E off d).
Proof.
  intros [s w] X. unfold Kw in X. cbn [fst snd] in X. unfold sink_write. cbn [fst]. split; [|intros; exact I]. destruct s as [f|s].
  - unfold runF. cbn [snd fst]. destruct (q_file_write (cnt w) f off d w eq_refl) as [A _]. destruct (file_write E f off d w). unfold Kw, Qw in *. cbn in *. lia.
  - unfold runS. cbn [snd fst]. destruct (s_write (cnt w) (s_bucket s) (s_key s) off d (s, w)) as [[A [B C]] _]; [split; [reflexivity|split; reflexivity]|]. destruct (s3_write E off d (s, w)) as [[s' w'] r]. unfold Kw, Qw in *. cbn in *. rewrite A, B, C. exact X.
Qed.
Lemma o_finalize : pres Ow any (finalize_sink E).
Proof.
  intros [o w] X. unfold Ow in X. cbn [fst snd] in X. split; [|intros; exact I]. unfold finalize_sink. destruct o as [s|]; [|exact X].
  assert (D : forall s' w', cnt (fst (sink_destroy s' w')) = cnt w') by (intros s' w'; apply (q_destroy (cnt w') s' w' eq_refl)).
  assert (F : forall s' w' r, sink_flush E (s, w) = ((s', w'), r) -> match r with Ok true => cnt w' <= N | _ => cnt w' + h_sink s' <= N end).
  { unfold sink_flush. cbn [fst]. destruct s as [f|s].
    - unfold runF. cbn [fst snd]. destruct (q_file_flush (cnt w) f w eq_refl) as [A _]. destruct (file_flush f w) as [w1 r1]. unfold Qw in A. cbn in *. intros s' w' r Y. injection Y as <- <- <-. cbn. rewrite A. destruct r1 as [[]|e| |]; cbn in *; lia.
    - unfold runS. cbn [fst snd]. pose proof (flush_s3_spec (cnt w) (s_bucket s) (s_key s) (s, w)) as A. destruct (s3_flush E (s, w)) as [[s1 w1] r1]. intros s' w' r Y. injection Y as <- <- <-.
      specialize (A (conj eq_refl (conj eq_refl eq_refl))). cbn [h_slot h_sink] in *. destruct r1 as [[]|e| |]; destruct A as [A [B C]]; unfold Qw in A; cbn [fst snd] in *; rewrite ?B, ?C; lia. }
  destruct (sink_flush E (s, w)) as [[s' w'] r]. specialize (F s' w' r eq_refl). unfold Ow. destruct r as [[]|e| |]; cbn [fst snd] in *; auto.
  pose proof (D s' w') as D'. destruct (sink_destroy s' w') as [w2 r2]. cbn in *. lia.
Qed.
End N.

(** *** the paths of a row: all different, or none at all *)
Section Paths.
Variable c : Z.
Notation pw := (pres (Qw c)).
Ltac st := first [apply pres_ret; first [exact I|assumption|auto] | apply pres_throw | apply pres_expect; exact I | apply pres_lift; intros; exact I].
Definition gridlike (base : string) (n : nat) (l : list string) : Prop := l = [] \/ exists ns, allpos ns /\ List.length ns = n /\ l = grid_paths base ns.
Lemma q_paths base ds parts mk : base <> "" -> pw (gridlike base (List.length (firstn (List.length ds - 2) (tl ds)) + 1)) (make_data_sink_paths E base ds parts mk).
Proof.
  intros Hb. unfold make_data_sink_paths.
  eapply pres_bind with (P := any). { destruct mk; [eapply pres_bind; [apply q_make_dirs|intros ? _; st]|st]. } intros _ _.
  set (todo := firstn _ _). eapply pres_bind with (P := gridlike base (List.length todo)).
  - assert (G : forall todo n l, gridlike base n l -> pw (gridlike base (n + List.length todo))
      (mfold (fun paths d => n <- liftM (parts d) ;; expectM (negb (n =? 0)) "CHECK(n_parts)" ;;; let paths' := extend_paths paths n in
         (if mk then ok <- make_dirs E paths' ;; expectM ok "Failed to create directories for dimension" else ret tt) ;;; ret paths') todo l)).
    { clear -Hb. intros todo. induction todo as [|d todo IH]; intros n l Hl; cbn [mfold List.length].
      - rewrite Nat.add_0_r. apply pres_ret. exact Hl.
      - eapply pres_bind with (P := gridlike base (S n)).
        + eapply pres_bind with (P := any); [st|intros x _]. eapply pres_bind with (P := any); [st|intros ? _]. cbv zeta.
          eapply pres_bind with (P := any). { destruct mk; [eapply pres_bind; [apply q_make_dirs|intros ? _; st]|st]. } intros _ _. apply pres_ret.
          destruct Hl as [->|(ns & P1 & P2 & ->)]; [left; reflexivity|]. destruct (Z_lt_le_dec 0 x) as [Px|Px].
          * right. exists (ns ++ [x]). split; [apply Forall_app; split; auto|]. split; [rewrite app_length; cbn; lia|]. apply extend_grid; auto.
          * left. unfold extend_paths. replace (zseq x) with (@nil Z) by (unfold zseq; replace (Z.to_nat x) with O by lia; reflexivity). cbn [map]. clear. induction (grid_paths base ns); cbn; auto.
        + intros l' Hl'. replace (n + S (List.length todo))%nat with (S n + List.length todo)%nat by lia. apply IH; auto. }
    specialize (G todo 0%nat [base]). apply G. right. exists []. split; [constructor|]. split; reflexivity.
  - intros l Hl. eapply pres_bind with (P := any); [st|intros x _]. eapply pres_bind with (P := any); [st|intros ? _]. apply pres_ret.
    destruct Hl as [->|(ns & P1 & P2 & ->)]; [left; reflexivity|]. destruct (Z_lt_le_dec 0 x) as [Px|Px].
    + right. exists (ns ++ [x]). split; [apply Forall_app; split; auto|]. split; [rewrite app_length; cbn; lia|]. apply final_grid; auto.
    + left. unfold final_paths. replace (zseq x) with (@nil Z) by (unfold zseq; replace (Z.to_nat x) with O by lia; reflexivity). cbn [map]. clear. induction (grid_paths base ns); cbn; auto.
Qed.
Lemma q_make_files l : pw (fun s => hsum s = 0) (make_files E l).
Proof.
  unfold make_files. apply pres_mfold; [|reflexivity]. intros acc p Hp Hacc. eapply pres_bind; [apply q_file_sink|]. intros f _. eapply pres_bind; [apply q_done|intros ? _]. apply pres_ret. rewrite hsum_app, Hacc. reflexivity.
Qed.
Lemma q_s3_sink b' k' : pw (fun s => s_bucket s = b' /\ s_key s = k') (s3_sink b' k').
Proof. unfold s3_sink. eapply pres_bind with (P := any); [st|intros ? _]. eapply pres_bind with (P := any); [st|intros ? _]. apply pres_ret. auto. Qed.
(** sinks for the paths [l]: how many are for the object *)
Definition occ (b' : string) (l : list string) : Z := if String.eqb b b' then Z.of_nat (count_occ string_dec l k) else 0.
Lemma q_s3_sinks b' l acc : pw (fun s => hsum s = hsum acc + occ b' l) (mfold (fun acc k => s <- s3_sink b' k ;; ret (acc ++ [Some (SS3 s)])%list) l acc).
Proof.
  revert acc. induction l as [|x l IH]; intros acc; cbn [mfold].
  - apply pres_ret. unfold occ. cbn. destruct (_ =? _)%string; lia.
  - eapply pres_bind with (P := fun s => hsum s = hsum acc + own b' x).
    + eapply pres_bind; [apply q_s3_sink|]. intros s [H1 H2]. apply pres_ret. rewrite hsum_app. cbn. rewrite H1, H2. lia.
    + intros acc' H. eapply pres_weak; [apply IH|]. intros s X. cbn beta in *. rewrite X, H. unfold occ, own. destruct (b =? b')%string; cbn [andb count_occ]; [|lia].
      destruct (string_dec x k) as [->|Hn]; [rewrite String.eqb_refl; lia|]. destruct (String.eqb_spec k x); [congruence|lia].
Qed.
Lemma occ_grid b' base n l : gridlike base n l -> 0 <= occ b' l <= 1 /\ (occ b' l = 1 -> b = b' /\ exists cc, Forall (fun i => 0 <= i) cc /\ List.length cc = n /\ k = path_of_coords base cc).
Proof.
  intros H. unfold occ. destruct (String.eqb_spec b b') as [Hbb|]; [|lia]. destruct H as [->|(ns & P1 & P2 & ->)]; [cbn; lia|].
  pose proof (proj1 (NoDup_count_occ string_dec _) (grid_paths_nodup base ns P1) k) as C. split; [lia|]. intros H. split; [exact Hbb|].
  assert (K : In k (grid_paths base ns)) by (apply (count_occ_In string_dec); lia). unfold grid_paths in K. apply in_map_iff in K as (cc & K1 & K2). apply in_grid in K2; auto. exists cc. split; [eapply in_bounds_nonneg; exact K2|]. split; [rewrite <- (in_bounds_length _ _ K2); exact P2|auto].
Qed.
End Paths.

(** *** one array *)
Section Arr.
Variables (v3 : bool) (c0 : config).
(** the row of the array that has the object, if it has; whether the object is its document *)
Variables (qo : option Z) (mt : bool).
Let ncoords := (List.length (firstn (List.length (c_dims c0) - 2) (tl (c_dims c0))) + 1)%nat.
Hypothesis sound_data : forall q cc, 0 <= q -> Forall (fun i => 0 <= i) cc -> List.length cc = ncoords -> c_bucket c0 = Some b -> k = join_path (c_root c0) (data_comps v3 (c_level c0) q ++ map dec cc) -> qo = Some q.
Hypothesis sound_meta : c_bucket c0 = Some b -> k = join_path (c_root c0) (meta_comps v3 (c_level c0)) -> mt = true.
Definition futq (q : Z) : Z := match qo with Some r => if q <=? r then 1 else 0 | None => 0 end.
Definition futm (a : writer) : Z := match a_meta a with None => if mt then 1 else 0 | Some _ => 0 end.
Definition nextq (a : writer) : Z := match a_sinks a with [] => a_append a | _ => a_append a + 1 end.
(** the uploads the array may still make *)
Definition may (a : writer) : Z := hsum (a_sinks a) + h_slot (a_meta a) + futq (nextq a) + futm a.
Definition bw (a : writer) : Prop := a_cfg a = c0 /\ a_v3 a = v3 /\ 0 <= a_append a.
Lemma futq_range q : 0 <= futq q <= 1. Proof. unfold futq. destruct qo as [r|]; [destruct (q <=? r)|]; lia. Qed.
Lemma futq_le q q' : q <= q' -> futq q' <= futq q. Proof. intros H. unfold futq. destruct qo as [r|]; [|lia]. destruct (Z.leb_spec q' r), (Z.leb_spec q r); lia. Qed.
Lemma may_nonneg a : 0 <= may a.
Proof. unfold may, futm. pose proof (hsum_nonneg (a_sinks a)). pose proof (h_slot_nonneg (a_meta a)). pose proof (futq_range (nextq a)). destruct (a_meta a), mt; lia. Qed.
Section Row.
Variables N q : Z.
Definition jr (a : writer) : Prop := bw a /\ a_append a = q.
Definition Jr (aw : AW) : Prop := cnt (snd aw) + may (fst aw) <= N /\ jr (fst aw).
Notation pa := (pres Jr).
Ltac st := first [apply pres_ret; first [exact I|assumption|auto] | apply pres_throw | apply pres_expect; exact I | apply pres_lift; intros; exact I].
Lemma a_onWd {A} (Q : A -> Prop) m : (forall c, pres (Qw c) Q m) -> pa Q (onWd m).
Proof. intros H [a w] [X Y]. unfold onWd. cbn [fst snd] in *. specialize (H (cnt w) w eq_refl). destruct (m w) as [w' r]. cbn in *. destruct H as [H K]. unfold Qw in H. split; [split; cbn [fst snd]; [lia|auto]|auto]. Qed.
Lemma a_getA : pa jr getA.
Proof. intros [a w] [X Y]. split; [split; auto|]. cbn. intros v Z. injection Z as <-. auto. Qed.
Lemma a_modA f : (forall a, jr a -> jr (f a)) -> (forall a, may (f a) <= may a) -> pa any (modA f).
Proof. intros H K [a w] [X Y]. split; [|intros; exact I]. cbn [fst snd] in *. split; cbn [fst snd modA]; [specialize (K a); lia|auto]. Qed.
Lemma nextq_upd a i o : nextq (set_sinks a (upd (a_sinks a) i o)) = nextq a.
Proof. unfold nextq. cbn. destruct (a_sinks a) as [|x l]; [unfold upd; rewrite firstn_nil, skipn_nil; reflexivity|]. destruct (upd (x :: l) i o) eqn:U; [apply (proj1 (upd_nil _ _ _)) in U; discriminate|reflexivity]. Qed.
Lemma a_on_sink {A} (Q : A -> Prop) i m : (forall n, pres (Kw n) Q m) -> pa Q (on_sink i m).
Proof.
  intros H [a w] [X Y]. cbn [fst snd] in *. unfold on_sink. destruct (nth i (a_sinks a) None) as [s|] eqn:Es; [|split; [split; auto|discriminate]].
  destruct (H (cnt w + h_sink s) (s, w) (Z.le_refl _)) as [H1 H2]. destruct (m (s, w)) as [[s' w'] r]. unfold Kw in H1. cbn [fst snd] in *. split; [|auto]. split; [|exact Y]. cbn [fst snd].
  unfold may in *. rewrite nextq_upd. cbn [a_sinks a_meta set_sinks]. pose proof (hsum_upd (a_sinks a) i (Some s')) as U. rewrite Es in U. cbn [h_slot] in U. unfold futm in *. cbn [a_meta set_sinks]. lia.
Qed.
Lemma a_on_slot {A} (Q : A -> Prop) i m : (forall n, pres (Ow n) Q m) -> pa Q (on_slot i m).
Proof.
  intros H [a w] [X Y]. cbn [fst snd] in *. unfold on_slot.
  destruct (H (cnt w + h_slot (nth i (a_sinks a) None)) (nth i (a_sinks a) None, w) (Z.le_refl _)) as [H1 H2]. destruct (m _) as [[s' w'] r]. unfold Ow in H1. cbn [fst snd] in *. split; [|auto]. split; [|exact Y]. cbn [fst snd].
  unfold may in *. rewrite nextq_upd. cbn [a_sinks a_meta set_sinks]. pose proof (hsum_upd (a_sinks a) i s') as U. unfold futm in *. cbn [a_meta set_sinks]. lia.
Qed.
Lemma a_on_meta {A} (Q : A -> Prop) m : (forall n, pres (Kw n) Q m) -> pa Q (on_meta m).
Proof.
  intros H [a w] [X Y]. cbn [fst snd] in *. unfold on_meta. destruct (a_meta a) as [s|] eqn:Em; [|split; [split; auto|discriminate]].
  destruct (H (cnt w + h_sink s) (s, w) (Z.le_refl _)) as [H1 H2]. destruct (m (s, w)) as [[s' w'] r]. unfold Kw in H1. cbn [fst snd] in *. split; [|auto]. split; [|exact Y]. cbn [fst snd].
  unfold may, futm, nextq in *. cbn [a_sinks a_meta a_append set_meta]. rewrite Em in X. cbn [h_slot] in *. lia.
Qed.
Ltac ag := eapply pres_bind; [apply a_getA|intros ? ?].
Ltac a1 := first [apply a_modA; [intros ? X; exact X|intros ?; apply Z.le_refl] | apply a_onWd; intros; apply q_done | st].
Ltac bd := eapply pres_bind with (P := any); [|intros ? _].
Tactic Notation "bn" ident(x) := eapply pres_bind with (P := any); [|intros x _].
Lemma a_write i off d : pa any (on_sink i (sink_write E off d)).
Proof. apply a_on_sink. intros; apply k_write. Qed.
Lemma a_compress : pa any (compress_buffers E).
Proof.
  unfold compress_buffers. ag. destruct (c_comp (a_cfg a)) as [pr|]; [|st]. bd; [st|]. apply pres_miter. intros i _. ag. destruct (e_compress E pr a0 (nth i (a_bufs a1) [])); [bd; a1|a1].
Qed.
Lemma a_make_meta : pa any (make_metadata_sink E).
Proof.
  intros [a w] [X Y]. unfold make_metadata_sink. unfold bind at 1. cbn [getA fst snd] in *. destruct (a_meta a) as [s|] eqn:Em; [split; [split; auto|intros; exact I]|].
  assert (Y' := Y). destruct Y' as [[Y1 [Y2 Y3]] Y4].
  assert (R : metadata_path a = join_path (c_root c0) (meta_comps v3 (c_level c0))) by (rewrite metadata_path_join, Y1, Y2; reflexivity).
  assert (P : forall c, pres (Qw c) (fun o => h_slot o <= if mt then 1 else 0) (match c_bucket (a_cfg a) with Some b => make_sink_s3 E b (metadata_path a) | None => make_sink_fs E (metadata_path a) end)).
  { intros c. assert (Z0 : 0 <= if mt then 1 else 0) by (destruct mt; lia). rewrite R, Y1. destruct (c_bucket c0) as [b'|] eqn:B.
    - unfold make_sink_s3. bd; [st|]. bd; [st|]. eapply pres_bind; [apply q_bucket|intros ok _]. destruct ok; [|apply pres_ret; exact Z0].
      eapply pres_bind; [apply q_s3_sink|]. intros s [S1 S2]. apply pres_ret. cbn [h_slot h_sink]. rewrite S1, S2. unfold own. destruct (String.eqb_spec b b') as [<-|]; [|exact Z0]. destruct (String.eqb_spec k (join_path (c_root c0) (meta_comps v3 (c_level c0)))) as [K|]; [|exact Z0].
      rewrite (sound_meta eq_refl K). cbn. lia.
    - unfold make_sink_fs. cbv zeta. bd; [st|]. eapply pres_bind with (P := any); [apply q_isdir|intros d _]. eapply pres_bind with (P := any); [destruct d; [st|apply q_mkdirs]|]. intros ok _. destruct ok; [|apply pres_ret; exact Z0].
      eapply pres_bind; [apply q_file_sink|]. intros f _. apply pres_ret. exact Z0. }
  revert P. match goal with |- context [onWd ?m] => generalize m end. intros mm P. destruct (P (cnt w) w eq_refl) as [P1 P2]. unfold bind at 1, onWd. cbn [fst snd]. destruct (mm w) as [w1 r]. unfold Qw in P1. cbn [fst snd] in *.
  assert (Sm : Jr (a, w1)) by (split; cbn [fst snd]; [lia|exact Y]).
  destruct r as [[s|]|e| |]; try (split; [exact Sm|intros; exact I]). specialize (P2 _ eq_refl). split; [|intros; exact I]. cbn. split; [|exact Y]. cbn [fst snd].
  unfold may, futm, nextq in *. cbn [a_sinks a_meta a_append set_meta]. rewrite Em in X. cbn [h_slot] in *. lia.
Qed.
Lemma a_write_meta : pa any (write_array_metadata E).
Proof.
  unfold write_array_metadata. eapply pres_bind with (P := any); [apply a_make_meta|intros ok _]. destruct ok; [|st]. ag. cbv zeta. destruct (a_v3 a).
  - eapply pres_bind with (P := any); [st|intros x _]. destruct (dtype_v3 _); [apply a_on_meta; intros; apply k_write|st].
  - destruct (dtype_v2 _); [|st]. eapply pres_bind with (P := any); [st|intros x _]. apply a_on_meta; intros; apply k_write.
Qed.
(** new data sinks, made when there are none *)
Lemma a_make_data : hx (fun aw => Jr aw /\ a_sinks (fst aw) = []) (make_data_sinks E) (fun _ => Jr) Jr.
Proof.
  intros [a w] [[X Y] Z]. cbn [fst snd] in *. unfold make_data_sinks. unfold bind at 1. cbn [getA fst snd] in *. assert (Y' := Y). destruct Y' as [[Y1 [Y2 Y3]] Y4].
  assert (R : data_root a = join_path (c_root c0) (data_comps v3 (c_level c0) q)) by (rewrite data_root_join, Y1, Y2, Y4; reflexivity).
  assert (Rn : data_root a <> "").
  { unfold data_root. clear. intros H. destruct (a_v3 a); apply (f_equal String.length) in H; rewrite !slength_app in H; cbn [String.length] in H; lia. }
  assert (P : forall c, pres (Qw c) (fun o => match o with Some l => hsum l <= (match qo with Some r => if r =? q then 1 else 0 | None => 0 end) | None => True end)
     (match c_bucket (a_cfg a) with Some b => make_data_sinks_s3 E b (data_root a) (c_dims (a_cfg a)) (parts_along a) | None => make_data_sinks_fs E (data_root a) (c_dims (a_cfg a)) (parts_along a) end)).
  { intros c. assert (Z0 : 0 <= match qo with Some r => if r =? q then 1 else 0 | None => 0 end) by (destruct qo as [r|]; [destruct (r =? q)|]; lia). rewrite Y1. destruct (c_bucket c0) as [b'|] eqn:B.
    - unfold make_data_sinks_s3. bd; [st|]. eapply pres_bind; [apply q_paths; exact Rn|]. intros l Hl. destruct (b' =? "")%string; [apply pres_ret; exact I|].
      eapply pres_bind; [apply q_s3_sinks|]. intros s Hs. apply pres_ret. cbn beta in Hs. rewrite Hs. cbn [hsum fold_right]. destruct (occ_grid b' _ _ _ Hl) as [O1 O2]. destruct (Z.eq_dec (occ b' l) 1) as [O|O]; [|lia].
      destruct (O2 O) as (<- & cc & C1 & C2 & C3). rewrite R in C3. unfold path_of_coords in C3. rewrite <- join_path_app in C3. rewrite (sound_data q cc ltac:(lia) C1 C2 eq_refl C3), Z.eqb_refl. lia.
    - unfold make_data_sinks_fs. cbv zeta. bd; [st|]. eapply pres_bind with (P := any).
      + apply pres_catch; [|intros; apply pres_ret; exact I]. destruct (string_dec (strip_file (data_root a)) "") as [S0|S0].
        * rewrite S0. clear. unfold make_data_sink_paths. bd; [|st]. bd; [bd; [apply q_make_dirs|st]|]. bd.
          { apply pres_mfold; [|exact I]. intros l d _ _. bd; [st|]. bd; [st|]. cbv zeta. bd; [bd; [apply q_make_dirs|st]|st]. }
          bd; [st|]. bd; st.
        * eapply pres_bind; [apply q_paths; exact S0|]. intros; st.
      + intros [l|] _; [|apply pres_ret; exact I]. eapply pres_bind; [apply q_make_files|]. intros s Hs. apply pres_ret. cbn beta in Hs. lia. }
  revert P. match goal with |- context [onWd ?m] => generalize m end. intros mm P. destruct (P (cnt w) w eq_refl) as [P1 P2]. unfold bind at 1, onWd. cbn [fst snd]. destruct (mm w) as [w1 r]. unfold Qw in P1. cbn [fst snd] in *.
  assert (Sm : Jr (a, w1)) by (split; cbn [fst snd]; [lia|exact Y]).
  destruct r as [[l|]|e| |]; try exact Sm. specialize (P2 _ eq_refl). cbn beta iota in P2. cbn. split; [|exact Y]. cbn [fst snd].
  unfold may, futm, nextq in *. cbn [a_sinks a_meta a_append set_sinks]. rewrite Z in X. cbn [hsum fold_right] in X. destruct l as [|x l].
  - cbn [hsum fold_right]. lia.
  - assert (F : hsum (x :: l) + futq (a_append a + 1) <= futq (a_append a)); [|lia]. rewrite Y4. unfold futq. destruct qo as [r|]; [|lia]. destruct (Z.eqb_spec r q), (Z.leb_spec (q + 1) r), (Z.leb_spec q r); lia.
Qed.
Lemma a_v2_job i : pa any (v2_job E i).
Proof. unfold v2_job. ag. bd; [|a1]. apply pres_catch; [|intros; st]. bd; [apply a_write|]. bd; st. Qed.
Lemma hx_pa {A} (m : M AW A) : pa any m -> hx Jr m (fun _ => Jr) Jr.
Proof. intros H. eapply hx_weak; [apply hx_pres; exact H|auto|intros v s [X _]; exact X|auto]. Qed.
Lemma a_flush_v2 : hx Jr (flush_impl_v2 E) (fun _ => Jr) Jr.
Proof.
  unfold flush_impl_v2. apply hx_getA. intros a. eapply hx_bind with (Q := fun _ aw => Jr aw /\ a_sinks (fst aw) = []).
  { apply hx_expect; [|tauto]. intros [a' w] [X Y] H. cbn in Y. subst a'. split; auto. cbn. destruct (a_sinks a); [auto|discriminate]. }
  intros _. eapply hx_bind with (Q := fun _ => Jr); [apply a_make_data|]. intros ok. destruct ok; [|apply hx_ret; auto]. apply hx_pa. ag. bd; [st|]. bd; [|st]. apply pres_miter. intros; apply a_v2_job.
Qed.
Lemma a_v3_chunk s x ci : pa any (v3_chunk E s x ci).
Proof.
  unfold v3_chunk. ag. cbv zeta. bn r.
  - apply pres_catch; [|intros; st]. bd; [apply a_write|st].
  - destruct r as [[] [m|]]; [st| |st|st]. apply pres_catch; [|intros; st]. repeat (bd; [a1|]). st.
Qed.
Lemma a_v3_chunks s : forall cs x, pa any (v3_chunks E s cs x).
Proof. induction cs as [|ch cs IH]; intros x; cbn [v3_chunks]; [st|]. bn r; [apply a_v3_chunk|]. destruct r as [[] [m|]]; try st. apply IH. Qed.
Lemma a_v3_table s : pa any (v3_table E s).
Proof. unfold v3_table. ag. apply pres_catch; [|intros; st]. bd; [apply a_write|st]. Qed.
Lemma a_v3_job tb cis s : pa any (v3_job E tb cis s).
Proof.
  unfold v3_job. bn r; [apply a_v3_chunks|]. bn r2; [destruct r as [[] [m|]]; [st| |st|st]; destruct tb; [apply a_v3_table|st]|]. a1.
Qed.
Lemma a_flush_v3 : hx Jr (flush_impl_v3 E) (fun _ => Jr) Jr.
Proof.
  unfold flush_impl_v3. apply hx_getA. intros a. eapply hx_bind with (Q := fun _ => Jr).
  { destruct (a_sinks a) eqn:S0; [|apply hx_ret; tauto]. eapply hx_pre; [apply a_make_data|]. intros [a' w] [X Y]. cbn in Y. subst a'. auto. }
  intros ok. destruct ok; [|apply hx_ret; auto]. apply hx_pa. ag. cbv zeta. bd; [st|]. bd; [st|]. bd; [st|].
  bd; [destruct (a_final a0); st|]. bd; [apply pres_miter; intros; apply a_v3_job|]. bd; [|st]. match goal with |- pres _ _ (if ?b then _ else _) => destruct b end; a1.
Qed.
Lemma a_flush_impl : hx Jr (flush_impl E) (fun _ => Jr) Jr.
Proof. unfold flush_impl. apply hx_getA. intros a. eapply hx_pre with (P := Jr); [|tauto]. destruct (a_v3 a); [apply a_flush_v3|apply a_flush_v2]. Qed.
End Row.
(** rows up to [m] *)
Definition Jm (N m : Z) (aw : AW) : Prop := exists q, Jr N q aw /\ q <= m.
Lemma Jm_up N m m' aw : Jm N m aw -> m <= m' -> Jm N m' aw.
Proof. intros (q & X & Y) H. exists q. split; [exact X|lia]. Qed.
Lemma hx_Jm {A} N m (p : M AW A) : (forall q, hx (Jr N q) p (fun _ => Jr N q) (Jr N q)) -> hx (Jm N m) p (fun _ => Jm N m) (Jm N m).
Proof. intros H s (q & X & Y). specialize (H q s X). destruct (p s) as [s' [v|e| |]]; exists q; auto. Qed.
Lemma hx_Jp {A} N m (p : M AW A) : (forall q, pres (Jr N q) any p) -> hx (Jm N m) p (fun _ => Jm N m) (Jm N m).
Proof. intros H. apply hx_Jm. intros q. apply hx_pa. auto. Qed.
Lemma rollover_spec N m : m + 1 < 2 ^ 32 -> hx (Jm N m) (rollover E) (fun _ => Jm N (m + 1)) (Jm N m).
Proof.
  intros H32 s (q & X & Hq). revert s X.
  assert (C : hx (Jr N q) (rollover E) (fun _ => Jr N (q + 1)) (Jr N q)).
  { assert (Eq : forall s, rollover E s = (a <- getA ;; miter (fun i => ok <- on_slot i (finalize_sink E) ;; expectM ok "Failed to finalize sink") (seq 0 (List.length (a_sinks a))) ;;;
      modA (fun a => set_append (set_sinks a []) (u32 (a_append a + 1)))) s).
    { intros [a w]. unfold rollover, close_sinks, bind, getA. cbn [fst]. match goal with |- context [miter ?f ?l (a, w)] => destruct (miter f l (a, w)) as [[a1 w1] [[]|e| |]] end; reflexivity. }
    intros s X. rewrite Eq. revert s X. apply hx_getA. intros a. eapply hx_bind with (Q := fun _ => Jr N q).
    - eapply hx_pre with (P := Jr N q); [|tauto]. apply hx_pa. apply pres_miter. intros i _. eapply pres_bind with (P := any); [apply a_on_slot; intros; apply o_finalize|intros ok _; apply pres_expect; exact I].
    - intros _. apply hx_mod. intros a' w [X [[Y1 [Y2 Y3]] Y4]]. cbn [fst snd] in *. rewrite u32_id by lia.
      split; cbn [fst snd]; [|repeat split; cbn; auto; lia]. unfold may, futm, nextq in *. cbn [a_sinks a_meta a_append set_sinks set_append hsum fold_right]. pose proof (hsum_nonneg (a_sinks a')).
      destruct (a_sinks a'); [pose proof (futq_le (a_append a') (a_append a' + 1) ltac:(lia))|]; lia. }
  intros s X. specialize (C s X). destruct (rollover E s) as [s' [v|e| |]]; [exists (q + 1)|exists q..]; (split; [exact C|lia]).
Qed.
Lemma Jr_eq N q a a' w : may a' = may a -> a_cfg a' = a_cfg a -> a_v3 a' = a_v3 a -> a_append a' = a_append a -> Jr N q (a, w) -> Jr N q (a', w).
Proof. intros H1 H2 H3 H4 [X [[Y1 [Y2 Y3]] Y4]]. cbn [fst snd] in *. split; cbn [fst snd]; [lia|]. split; [split; [|split]|]; congruence || lia. Qed.
Lemma flush_spec N m : m + 1 < 2 ^ 32 -> hx (Jm N m) (flush E) (fun _ => Jm N (m + 1)) (Jm N (m + 1)).
Proof.
  intros H32. unfold flush. apply hx_getA. intros a. eapply hx_pre with (P := Jm N m); [|tauto]. destruct (a_toflush a =? 0); [apply hx_ret; intros s X; eapply Jm_up; [exact X|lia]|].
  assert (U : forall A (p : M AW A) Q, hx (Jm N m) p Q (Jm N m) -> hx (Jm N m) p Q (Jm N (m + 1))) by (intros A p Q H; eapply hx_weak; [exact H|auto|auto|intros s X; eapply Jm_up; [exact X|lia]]).
  eapply hx_bind with (Q := fun _ => Jm N m); [apply U, hx_Jp; intros; apply a_compress|intros _]. eapply hx_bind with (Q := fun _ => Jm N m); [apply U, hx_Jm; intros; apply a_flush_impl|intros ok].
  eapply hx_bind with (Q := fun _ => Jm N m); [apply U, hx_expect; auto|intros _]. apply hx_getA. intros a1. eapply hx_bind with (Q := fun _ => Jm N m); [apply hx_lift; [tauto|intros s [X _]; eapply Jm_up; [exact X|lia]]|intros roll].
  eapply hx_bind with (Q := fun _ => Jm N (m + 1)); [destruct roll; [apply U, rollover_spec; auto|apply hx_ret; intros s X; eapply Jm_up; [exact X|lia]]|intros _].
  apply hx_getA. intros a2. eapply hx_bind with (Q := fun _ => Jm N (m + 1)).
  { eapply hx_pre with (P := Jm N (m + 1)); [|tauto]. destruct (roll || a_final a2); [|apply hx_ret; auto]. eapply hx_bind with (Q := fun _ => Jm N (m + 1)); [apply hx_Jp; intros; apply a_write_meta|intros ok2; apply hx_expect; auto]. }
  intros _. apply hx_getA. intros a3. eapply hx_bind with (Q := fun d' aw => Jm N (m + 1) aw /\ exists l, d' = set_bufs (fst aw) l).
  { apply hx_lift; [|intros s [X _]; exact X]. intros s v Hv [X Y]. split; auto. rewrite Y. eapply mk_bufs; eauto. }
  intros d'. apply hx_mod. intros a' w ((q & X & Hq) & l & ->). exists q. split; [|exact Hq]. eapply Jr_eq; [..|exact X]; reflexivity.
Qed.
Lemma write_frame_spec N m data : m + 1 < 2 ^ 32 ->
  hx (Jm N m) (write_frame E data) (fun v aw => (v = 0 /\ Jm N m aw) \/ (v = zlen data /\ Jm N (m + 1) aw)) (Jm N (m + 1)).
Proof.
  intros H32. unfold write_frame. assert (B : forall aw, Jm N m aw -> Jm N (m + 1) aw) by (intros aw X; eapply Jm_up; [exact X|lia]).
  apply hx_getA. intros a. eapply hx_bind with (Q := fun _ aw => Jm N m aw /\ fst aw = a); [apply hx_lift; [tauto|intros s [X _]; auto]|]. intros nf. destruct (nf =? zlen data) eqn:Ez; cbn [negb]; [|apply hx_ret; intros s [X _]; left; auto].
  eapply hx_bind with (Q := fun _ => Jm N m).
  { destruct (a_bufs a); [|apply hx_ret; tauto]. eapply hx_bind with (Q := fun d aw => Jm N m aw /\ exists l, d = set_bufs (fst aw) l).
    - apply hx_lift; [|intros s [X _]; auto]. intros [a' w] v Hv [X Y]. cbn in Y. subst a'. split; auto. eapply mk_bufs; eauto.
    - intros d. apply hx_mod. intros a' w ((q & X & Hq) & l & ->). exists q. split; [|exact Hq]. eapply Jr_eq; [..|exact X]; reflexivity. }
  intros _. apply hx_getA. intros a1. eapply hx_bind with (Q := fun _ => Jm N m); [apply hx_lift; [tauto|intros s [X _]; auto]|]. intros [bufs written].
  eapply hx_bind with (Q := fun _ => Jm N m). { apply hx_mod. intros a' w (q & X & Hq). exists q. split; [|exact Hq]. eapply Jr_eq; [..|exact X]; reflexivity. }
  intros _. destruct (Z.eqb_spec written (zlen data)) as [->|Hw]; [|intros s X; apply B; exact X].
  eapply hx_bind with (Q := fun _ => Jm N m); [apply hx_expect; auto|intros _]. eapply hx_bind with (Q := fun _ => Jm N m). { apply hx_mod. intros a' w (q & X & Hq). exists q. split; [|exact Hq]. eapply Jr_eq; [..|exact X]; reflexivity. }
  intros _. apply hx_getA. intros a2. eapply hx_bind with (Q := fun _ => Jm N m); [apply hx_lift; [tauto|intros s [X _]; auto]|]. intros sf.
  eapply hx_bind with (Q := fun _ => Jm N (m + 1)); [destruct sf; [apply flush_spec; auto|apply hx_ret; auto]|]. intros _. apply hx_ret. auto.
Qed.
Lemma finalize_spec N m : m + 1 < 2 ^ 32 -> hx (Jm N m) (finalize_array E) (fun _ aw => cnt (snd aw) <= N) (fun aw => cnt (snd aw) <= N).
Proof.
  intros H32. assert (D : forall m aw, Jm N m aw -> cnt (snd aw) <= N) by (intros m0 aw (q & [X _] & _); pose proof (may_nonneg (fst aw)); lia).
  unfold finalize_array. eapply hx_bind with (Q := fun _ => Jm N m). { apply hx_mod. intros a' w (q & X & Hq). exists q. split; [|exact Hq]. eapply Jr_eq; [..|exact X]; reflexivity. }
  intros _. eapply hx_bind with (Q := fun _ => Jm N (m + 1)).
  { eapply hx_catch with (R1 := Jm N (m + 1)); [|apply D|intros e; apply hx_ret; auto]. eapply hx_bind with (Q := fun _ => Jm N (m + 1)); [apply flush_spec; auto|]. intros _. apply hx_ret. auto. }
  intros ok. destruct ok; [|apply hx_ret; intros s X; eapply D; exact X].
  eapply hx_bind with (Q := fun _ aw => cnt (snd aw) <= N).
  { intros [a w] (q & [X _] & _). cbn [fst snd] in *. unfold on_meta_slot. destruct (o_finalize (cnt w + h_slot (a_meta a)) (a_meta a, w) (Z.le_refl _)) as [O _]. destruct (finalize_sink E (a_meta a, w)) as [[o w'] r]. unfold Ow in O. cbn [fst snd] in *.
    assert (cnt w' <= N); [|destruct r; auto]. pose proof (h_slot_nonneg o). unfold may in X. pose proof (hsum_nonneg (a_sinks a)). pose proof (futq_range (nextq a)). assert (0 <= futm a) by (unfold futm; destruct (a_meta a), mt; lia). lia. }
  intros ok2. destruct ok2; [|apply hx_ret; auto]. eapply hx_weak; [eapply (hx_pres (fun aw : AW => cnt (snd aw) <= N) any)| | |]; [|auto|intros v s [X _]; exact X|auto].
  eapply pres_bind with (P := any); [intros aw X; split; [exact X|intros; exact I]|intros a _]. eapply pres_bind with (P := any).
  - apply pres_miter. intros s _. destruct s as [s|]; [|apply pres_ret; exact I]. intros [a' w] X. cbn [fst snd] in X. unfold onWd. cbn [fst snd]. destruct (q_destroy (cnt w) s w eq_refl) as [Q _]. destruct (sink_destroy s w) as [w' r]. unfold Qw in Q. cbn [fst snd] in *. split; [lia|intros; exact I].
  - intros _ _. eapply pres_bind with (P := any); [intros aw X; split; [exact X|intros; exact I]|intros _ _; apply pres_ret; exact I].
Qed.
Lemma fresh_spec a : make_writer v3 c0 = Ok a -> a_sinks a = [] /\ a_meta a = None /\ a_append a = 0 /\ bw a.
Proof.
  unfold make_writer, bw. intros H. destruct v3 eqn:V; [destruct (number_of_shards (c_dims c0)); try discriminate|]; injection H as <-; cbn [a_sinks a_meta a_append a_cfg a_v3]; repeat (split; [reflexivity|]); lia.
Qed.
End Arr.
End Obj.

(** *** how many frames an array has, whatever the environment does *)
Section Frames.
Variables (E : env) (n : Z).
Definition Fn (aw : AW) : Prop := a_frames (fst aw) = n.
Notation pn := (pres Fn).
Lemma n_onWd {A} (m : M world A) : pn any (onWd m).
Proof. intros [a w] X. unfold onWd. cbn [fst snd]. destruct (m w) as [w' r]. split; [exact X|intros; exact I]. Qed.
Lemma n_getA : pn (fun a => a_frames a = n) getA.
Proof. intros [a w] X. split; [exact X|]. intros v H. injection H as <-. exact X. Qed.
Lemma n_modA f : (forall a, a_frames a = n -> a_frames (f a) = n) -> pn any (modA f).
Proof. intros H [a w] X. split; [apply H; exact X|intros; exact I]. Qed.
Lemma n_on_sink {A} i (m : M KW A) : pn any (on_sink i m).
Proof. intros [a w] X. unfold on_sink. destruct (nth i (a_sinks a) None); [|split; [exact X|discriminate]]. destruct (m _) as [[s' w'] r]. split; [exact X|intros; exact I]. Qed.
Lemma n_on_slot {A} i (m : M (option sink * world) A) : pn any (on_slot i m).
Proof. intros [a w] X. unfold on_slot. destruct (m _) as [[s' w'] r]. split; [exact X|intros; exact I]. Qed.
Lemma n_on_meta {A} (m : M KW A) : pn any (on_meta m).
Proof. intros [a w] X. unfold on_meta. destruct (a_meta a); [|split; [exact X|discriminate]]. destruct (m _) as [[s' w'] r]. split; [exact X|intros; exact I]. Qed.
Ltac st := first [apply pres_ret; exact I | apply pres_throw | apply pres_ub | apply pres_hang | apply pres_expect; exact I | apply pres_lift; intros; exact I | apply n_onWd | apply n_on_sink | apply n_on_slot | apply n_on_meta].
Ltac ag := eapply pres_bind; [apply n_getA|intros ? ?].
Ltac bd := eapply pres_bind with (P := any); [|intros ? _].
Ltac a1 := first [apply n_modA; intros ? X; exact X | st].
Lemma n_compress : pn any (compress_buffers E).
Proof. unfold compress_buffers. ag. destruct (c_comp (a_cfg a)) as [pr|]; [|st]. bd; [st|]. apply pres_miter. intros i _. ag. destruct (e_compress E pr a0 (nth i (a_bufs a1) [])); [bd; a1|a1]. Qed.
Lemma n_make_data : pn any (make_data_sinks E).
Proof. unfold make_data_sinks. ag. bd; [st|]. destruct a0 as [l|]; [bd; [a1|st]|st]. Qed.
Lemma n_write_meta : pn any (write_array_metadata E).
Proof.
  unfold write_array_metadata. eapply pres_bind with (P := any); [|intros ok _].
  - unfold make_metadata_sink. ag. destruct (a_meta a) as [s|]; [st|]. bd; [st|]. destruct a0; [bd; [a1|st]|st].
  - destruct ok; [|st]. ag. cbv zeta. destruct (a_v3 a).
    + bd; [st|]. destruct (dtype_v3 _); st.
    + destruct (dtype_v2 _); [|st]. bd; st.
Qed.
Lemma n_v3_chunks s : forall cs x, pn any (v3_chunks E s cs x).
Proof.
  induction cs as [|ch cs IH]; intros x; cbn [v3_chunks]; [st|]. eapply pres_bind with (P := any); [|intros r _; destruct r as [[] [m|]]; try st; apply IH].
  unfold v3_chunk. ag. cbv zeta. eapply pres_bind with (P := any); [apply pres_catch; [|intros; st]; bd; st|intros r _].
  destruct r as [[] [m|]]; [st| |st|st]. apply pres_catch; [|intros; st]. repeat (bd; [a1|]). st.
Qed.
Lemma n_flush_impl : pn any (flush_impl E).
Proof.
  unfold flush_impl. ag. destruct (a_v3 a).
  - unfold flush_impl_v3. ag. eapply pres_bind with (P := any); [destruct (a_sinks a0); [apply n_make_data|st]|intros ok _]. destruct ok; [|st]. ag. cbv zeta. bd; [st|]. bd; [st|]. bd; [st|].
    bd; [destruct (a_final a1); st|]. bd; [|bd; [|st]; match goal with |- pres _ _ (if ?b then _ else _) => destruct b end; a1].
    apply pres_miter. intros s _. unfold v3_job. eapply pres_bind with (P := any); [apply n_v3_chunks|intros r _]. eapply pres_bind with (P := any); [destruct r as [[] [m|]]; [st| |st|st]; match goal with |- pres _ _ (if ?b then _ else _) => destruct b end; [|st]|intros r2 _; st].
    unfold v3_table. ag. apply pres_catch; [|intros; st]. bd; st.
  - unfold flush_impl_v2. ag. bd; [st|]. bd; [apply n_make_data|]. destruct a2; [|st]. ag. bd; [st|]. bd; [|st]. apply pres_miter. intros i _. unfold v2_job. ag. bd; [|st]. apply pres_catch; [|intros; st]. bd; [st|]. bd; st.
Qed.
Lemma n_rollover : pn any (rollover E).
Proof. unfold rollover, close_sinks. bd; [|a1]. ag. bd; [|a1]. apply pres_miter. intros i _. bd; st. Qed.
Lemma n_flush : pn any (flush E).
Proof.
  unfold flush. ag. destruct (a_toflush a =? 0); [st|]. bd; [apply n_compress|]. bd; [apply n_flush_impl|]. bd; [st|]. ag. eapply pres_bind with (P := any); [st|intros roll _].
  bd; [destruct roll; [apply n_rollover|st]|]. ag. bd; [destruct (roll || a_final a5); [bd; [apply n_write_meta|st]|st]|]. ag.
  eapply pres_bind with (P := fun d => exists l, d = set_bufs a7 l); [apply pres_lift; intros v Hv; eapply mk_bufs; exact Hv|]. intros d (l & ->). apply n_modA. intros ? X. exact H2.
Qed.
End Frames.
Lemma write_frame_frames E n data : 0 <= n -> n + 1 < 2 ^ 32 -> hx (Fn n) (write_frame E data) (fun v aw => (v = 0 /\ Fn n aw) \/ (v = zlen data /\ Fn (n + 1) aw)) (fun aw => Fn n aw \/ Fn (n + 1) aw).
Proof.
  intros Hn H32. unfold write_frame. apply hx_getA. intros a. eapply hx_bind with (Q := fun _ aw => Fn n aw /\ fst aw = a); [apply hx_lift; [tauto|intros s [X _]; auto]|]. intros nf. destruct (nf =? zlen data) eqn:Ez; cbn [negb]; [|apply hx_ret; intros s [X _]; left; auto].
  eapply hx_bind with (Q := fun _ => Fn n).
  { destruct (a_bufs a); [|apply hx_ret; tauto]. eapply hx_bind with (Q := fun d aw => Fn n aw /\ exists l, d = set_bufs (fst aw) l).
    - apply hx_lift; [|intros s [X _]; auto]. intros [a' w] v Hv [X Y]. cbn in Y. subst a'. split; auto. eapply mk_bufs; eauto.
    - intros d. apply hx_mod. intros a' w (X & l & ->). exact X. }
  intros _. apply hx_getA. intros a1. eapply hx_bind with (Q := fun _ => Fn n); [apply hx_lift; [tauto|intros s [X _]; auto]|]. intros [bufs written].
  eapply hx_bind with (Q := fun _ => Fn n); [apply hx_mod; intros a' w X; exact X|].
  intros _. destruct (Z.eqb_spec written (zlen data)) as [->|Hw]; [|intros s X; left; exact X].
  eapply hx_bind with (Q := fun _ => Fn n); [apply hx_expect; auto|intros _]. eapply hx_bind with (Q := fun _ => Fn (n + 1)). { apply hx_mod. intros a' w X. unfold Fn in *. cbn [fst] in *. cbn. rewrite X. apply u32_id. lia. }
  intros _. apply hx_getA. intros a2. eapply hx_bind with (Q := fun _ => Fn (n + 1)); [apply hx_lift; [tauto|intros s [X _]; auto]|]. intros sf.
  eapply hx_bind with (Q := fun _ => Fn (n + 1)); [|intros _; apply hx_ret; auto].
  destruct sf; [|apply hx_ret; auto]. eapply hx_weak; [apply hx_pres, (n_flush E (n + 1))|auto|intros v s [X _]; exact X|auto].
Qed.
