(** IndepProofs for a stream: the calls of the C interface. *)
Require Import ZArith List Bool String Ascii Lia.
Require Import Verif.Base Verif.Dim Verif.Json Verif.World Verif.Writer Verif.IndepProofs Verif.Stream Verif.Api.
Import ListNotations.
Open Scope string_scope. Open Scope list_scope. Open Scope Z_scope.

Section Indep.
Variables (E : env) (vp : string -> Prop) (t1 t2 : list event) (okp : string -> Prop).
Hypothesis okp_vp : forall p, okp p -> vp p.
Hypothesis okp_parent : forall p, okp p -> vp (parent_path p).
Hypothesis okp_sub : forall p x, okp p -> okp (p ++ "/" ++ x)%string.
Hypothesis okp_ext : forall p k, okp p -> okp (p ++ (if String.eqb p "" then dec k else "/" ++ dec k))%string.
Notation Rw := (Rw E vp t1 t2).
Notation rw := (rel Rw).
Notation okw := (okw okp).
Definition okstream (s : stream) : Prop := Forall okw (s_writers s).
Definition Rt (x y : TW) : Prop := fst x = fst y /\ Rw (snd x) (snd y) /\ okstream (fst x).
Notation rt := (rel Rt).
Lemma bind_gen {S A B} (m : M S A) (f : A -> M S B) s : bind m f s = match m s with (s', Ok a) => f a s' | (s', Throw e) => (s', Throw e) | (s', UB) => (s', UB) | (s', Hang) => (s', Hang) end.
Proof. unfold bind. destruct (m s) as (s' & []); reflexivity. Qed.
Lemma bind_get {A} (f : stream -> M TW A) s w : bind getT f (s, w) = f s (s, w).
Proof. reflexivity. Qed.
Lemma t_onT {A} (Q : A -> Prop) m : rw Q m -> rt Q (onT m).
Proof.
  intros H [a w1] [a' w2] (X & Y & Z). cbn [fst snd] in *. subst a'. unfold onT. cbn [fst snd]. destruct (H w1 w2 Y) as (A1 & A2 & A3). destruct (m w1), (m w2). cbn [fst snd] in *. split; [split; auto|]. split; auto.
Qed.
Lemma t_getT : rt okstream getT.
Proof. intros [a w1] [a' w2] (X & Y & Z). cbn [fst snd] in *. subst a'. split; [split; auto|]. split; [reflexivity|]. cbn. intros v V. injection V as <-. auto. Qed.
Lemma t_modT f : (forall a, okstream a -> okstream (f a)) -> rt any (modT f).
Proof. intros H [a w1] [a' w2] (X & Y & Z). cbn [fst snd] in *. subst a'. split; [split; [reflexivity|split; cbn; auto]|]. split; [reflexivity|intros; exact I]. Qed.
Lemma Forall_upd {A} (P : A -> Prop) l i o : Forall P l -> P o -> Forall P (upd l i o).
Proof.
  intros H1 H2. unfold upd. apply Forall_app. rewrite <- (firstn_skipn i l) in H1. apply Forall_app in H1 as [X Y]. split; auto. destruct (skipn i l); constructor; auto. inversion Y; auto.
Qed.
Lemma t_on_writer {A} (Q : A -> Prop) i m : rel (Ra E vp t1 t2 okp) Q m -> rt Q (on_writer i m).
Proof.
  intros H [s w1] [s' w2] (X & Y & Z). cbn [fst snd] in *. subst s'. unfold on_writer. destruct (nth_error (s_writers s) i) as [a|] eqn:N; [|split; [split; auto|split; [auto|discriminate]]].
  assert (O : okw a) by (unfold okstream in Z; rewrite Forall_forall in Z; apply Z; eapply nth_error_In; eauto).
  destruct (H (a, w1) (a, w2) (conj eq_refl (conj Y O))) as ((A1 & A2 & A5) & A3 & A4). destruct (m (a, w1)) as [[? ?] ?], (m (a, w2)) as [[? ?] ?]. cbn [fst snd] in *. subst.
  split; [split; [reflexivity|split; [auto|]]|split; auto]. apply Forall_upd; auto.
Qed.
Ltac st := first
  [ apply rel_ret; first [exact I|assumption]
  | apply rel_throw | apply rel_ub | apply rel_hang
  | apply rel_expect; first [exact I|assumption]
  | apply rel_lift; intros; first [exact I|assumption]
  | apply r_emit | apply r_next | apply r_conn | apply r_return | apply r_request | apply r_seterr ].
Ltac bd := eapply rel_bind with (P := any); [|intros ? _].
Ltac tg := eapply rel_bind; [apply t_getT|intros ? ?].
Ltac brk := match goal with |- rel _ _ (if ?b then _ else _) => destruct b end.
Lemma r_create_store s : (s_bucket s = None -> vp (s_root s)) -> rw any (create_store E s).
Proof.
  intros H0. unfold create_store. destruct (s_bucket s) as [b|]; [|specialize (H0 eq_refl)].
  - bd; [apply rel_mod; [exact I|]; intros w1 w2 W; destruct W; constructor; auto|]. bd.
    + induction (e_conns E) as [|n IH]; cbn [open_connections]; [st|]. eapply rel_bind with (P := any); [apply r_request|intros [ok id] _]. bd; [destruct ok; st|exact IH].
    + apply rel_look. intros w1 w2 W. rewrite (r_conns _ _ _ _ _ _ W). revert w1 w2 W.
      assert (X : forall b : bool, rw any (if b then set_error "Error creating S3 connection pool: " ;;; ret false else get_connection ;;; '(ok, _) <- s3_request E ;; if ok then return_connection ;;; ret true else set_error "Failed to connect to S3" ;;; ret false)).
      { intros []; [bd; st|]. bd; [st|]. eapply rel_bind with (P := any); [apply r_request|intros [ok id] _]. destruct ok; bd; st. }
      intros w1 w2 W. apply X. exact W.
  - bd; [apply r_exists; auto|]. bd; [brk; [apply r_rm|st]|]. brk; [|bd; st]. bd; [apply r_mkdirs; auto|]. brk; [st|bd; st].
Qed.
Lemma t_write_metadata k d err : rt any (write_metadata E k d err).
Proof.
  intros [s w1] [s' w2] (X & Y & Z). cbn [fst snd] in *. subst s'. unfold write_metadata. destruct (find_key k (s_msinks s)) as [i|]; [|split; [split; auto|split; [auto|discriminate]]].
  assert (ER : forall m, rt any (onT (set_error m ;;; ret false))) by (intros; apply t_onT; bd; st).
  destruct (nth i (s_msinks s) (k, None)) as [k' [sk|]].
  - destruct (k_write E vp t1 t2 0 d (sk, w1) (sk, w2) (conj eq_refl Y)) as ((A1 & A2) & A3 & _). destruct (sink_write E 0 d (sk, w1)) as [[sk1 w1'] r1], (sink_write E 0 d (sk, w2)) as [[sk2 w2'] r2]. cbn [fst snd] in *. subst.
    assert (OS : okstream (set_msinks s (upd (s_msinks s) i (k', Some sk2)))) by exact Z.
    destruct r2 as [[]|m| |]; try (split; [split; [reflexivity|split; [assumption|exact OS]]|split; [reflexivity|intros; exact I]]).
    apply (ER err). split; [reflexivity|split; [assumption|exact OS]].
  - apply ER. split; [reflexivity|split; assumption].
Qed.
Lemma t_base : rt any (write_base_metadata E).
Proof. unfold write_base_metadata. tg. destruct (base_metadata a). apply t_write_metadata. Qed.
Lemma t_group : rt any (write_group_metadata E).
Proof. unfold write_group_metadata. tg. destruct (group_metadata a). apply t_write_metadata. Qed.
Lemma t_external : rt any (write_external_metadata E).
Proof. unfold write_external_metadata. tg. destruct (String.eqb _ _); [st|]. apply t_write_metadata. Qed.
Definition okroot (bucket : option string) (root : string) : Prop :=
  match bucket with Some b => True | None => vp (strip_file root) /\ forall x, okp (strip_file root ++ "/" ++ x)%string end.
Lemma t_create_metadata b r : okroot b r -> forall s w1 w2, s_bucket s = b -> s_root s = r -> Rt (s, w1) (s, w2) ->
  Rt (fst (create_metadata_sinks E (s, w1))) (fst (create_metadata_sinks E (s, w2))) /\ snd (create_metadata_sinks E (s, w1)) = snd (create_metadata_sinks E (s, w2)).
Proof.
  intros H s w1 w2 Hb Hr HI. unfold create_metadata_sinks.
  assert (P : rw any
    (catchM (r0 <- match b with Some b0 => make_metadata_sinks_s3 E (if s_v3 s then 3 else 2) b0 r | None => l <- make_metadata_sinks_fs E (if s_v3 s then 3 else 2) r ;; ret (Some l) end ;;
      match r0 with Some l => ret (Some l) | None => set_error "Error creating metadata sinks" ;;; ret None end) (fun m => set_error ("Error creating metadata sinks: " ++ m)%string ;;; ret None))).
  { apply rel_catch.
    - bd.
      + destruct b as [b|]; [apply r_meta_s3|]. destruct H. bd; [eapply r_meta_fs with (okp := okp); eauto|st].
      + destruct a; [st|]. bd; st.
    - intros m. bd; st. }
  assert (Q : rt any (fun tw => (r0 <- onT (catchM (r0 <- match b with Some b0 => make_metadata_sinks_s3 E (if s_v3 s then 3 else 2) b0 r | None => l <- make_metadata_sinks_fs E (if s_v3 s then 3 else 2) r ;; ret (Some l) end ;;
      match r0 with Some l => ret (Some l) | None => set_error "Error creating metadata sinks" ;;; ret None end) (fun m => set_error ("Error creating metadata sinks: " ++ m)%string ;;; ret None)) ;;
      match r0 with Some l => modT (fun s => set_msinks s l) ;;; ret true | None => ret false end) tw)).
  { bd; [apply t_onT; exact P|]. destruct a; [|st]. bd; [|st]. apply t_modT. intros s' Z. exact Z. }
  destruct (Q _ _ HI) as (R1 & R2 & _). rewrite !bind_get. cbv zeta. rewrite Hb, Hr. split; [exact R1|exact R2].
Qed.
Lemma new_writer_ok v3 c a : make_writer v3 c = Ok a -> okcfg okp c -> okw a.
Proof.
  unfold make_writer. destruct v3.
  - destruct (number_of_shards (c_dims c)); try discriminate. cbn. intros H HC. injection H as <-. exact HC.
  - intros H HC. injection H as <-. exact HC.
Qed.
Lemma pyramid_ok v3 : forall fuel c l, okcfg okp c -> pyramid fuel v3 c = Ok l -> Forall okw l.
Proof.
  induction fuel as [|f IH]; intros c l HC; cbn [pyramid]; [discriminate|]. destruct (downsample c) as [[c' again]| | |] eqn:D; try discriminate. cbn [obind].
  assert (HC' : okcfg okp c'). { unfold downsample in D. destruct (omap downsample_dim (c_dims c)); try discriminate. cbn [obind] in D. destruct (make_dimensions a); try discriminate. cbn [obind] in D. injection D as <- _. exact HC. }
  destruct (make_writer v3 c') as [a| | |] eqn:MW; try discriminate. cbn [obind]. destruct again.
  - destruct (pyramid f v3 c') as [l'| | |] eqn:P; try discriminate. intros X. injection X as <-. constructor; eauto using new_writer_ok.
  - intros X. injection X as <-. constructor; [eapply new_writer_ok; eauto|constructor].
Qed.
Lemma writers_ok s l : okcfg okp (base_config s) -> create_writers s = Ok l -> Forall okw l.
Proof.
  intros HC. unfold create_writers. destruct (make_writer (s_v3 s) (base_config s)) as [a| | |] eqn:MW; try discriminate. cbn [obind]. destruct (s_multi s).
  - destruct (pyramid pyramid_fuel (s_v3 s) (base_config s)) as [l'| | |] eqn:P; try discriminate. intros X. injection X as <-. constructor; [eapply new_writer_ok; eauto|eapply pyramid_ok; eauto].
  - intros X. injection X as <-. constructor; [eapply new_writer_ok; eauto|constructor].
Qed.
(** what the settings say about the place *)
Definition splace (st : settings) : option string * string := (option_map (fun x => opt_trim (x_bucket x)) (st_s3 st), opt_trim (st_path st)).
Definition okplace (st : settings) : Prop :=
  (fst (splace st) = None -> vp (snd (splace st))) /\ okroot (fst (splace st)) (snd (splace st)) /\
  match fst (splace st) with Some b => True | None => forall x, okp (strip_file (snd (splace st) ++ "/" ++ x)%string) end /\
  (st_s3 st = None -> forall p, st_path st = Some p -> vp (parent_path p)).
Lemma commit_place st s : commit st = Ok s -> (s_bucket s, s_root s) = splace st /\ s_writers s = [] /\ s_msinks s = [].
Proof. unfold commit. destruct (make_dimensions _); try discriminate. cbn [obind]. intros H. injection H as <-. repeat split. Qed.
Lemma r_drop s : rw any (drop_msinks s).
Proof. unfold drop_msinks. apply rel_miter. intros [k o] _. cbn [snd]. destruct o as [sk|]; [|st]. apply r_destroy. Qed.
Lemma validate_same st w1 w2 : (st_s3 st = None -> forall p, st_path st = Some p -> vp (parent_path p)) -> Rw w1 w2 -> validate_settings E w1 (Some st) = validate_settings E w2 (Some st).
Proof.
  intros H W. unfold validate_settings. destruct (_ || _)%bool; [reflexivity|]. destruct (st_path st) as [p|]; [|reflexivity]. destruct (String.eqb p ""); [reflexivity|].
  destruct (st_s3 st) as [x|]; [reflexivity|]. unfold validate_filesystem, parent_ok. rewrite (r_dir _ _ _ _ _ _ W _ (H eq_refl p eq_refl)). reflexivity.
Qed.
Lemma r_new st : okplace st -> rw okstream (new_stream E (Some st)).
Proof.
  intros (P1 & P3 & P4 & P5). assert (N : forall m : M world stream, rw okstream m -> rw okstream (fun w => match validate_settings E w (Some st) with Ok true => m w | Ok false => (w, Throw "Invalid Zarr stream settings") | Throw e => (w, Throw e) | UB => (w, UB) | Hang => (w, Hang) end)).
  { intros m Hm w1 w2 W. rewrite (validate_same st w1 w2 P5 W). destruct (validate_settings E w2 (Some st)) as [[]|e| |]; try (split; [auto|split; [auto|discriminate]]). apply Hm. auto. }
  refine (N _ _).
  eapply rel_bind with (P := fun s => (s_bucket s, s_root s) = splace st /\ s_writers s = [] /\ s_msinks s = []); [apply rel_lift; apply commit_place|]. intros s (S1 & S3 & S4).
  assert (SR : s_root s = snd (splace st)) by (rewrite <- S1; reflexivity). assert (SB : s_bucket s = fst (splace st)) by (rewrite <- S1; reflexivity).
  bd; [st|]. cbv zeta. bd; [apply r_create_store; cbn; rewrite SR, SB; auto|]. bd; [st|].
  eapply rel_bind with (P := Forall okw).
  { apply rel_lift. intros v V. eapply writers_ok; [|exact V]. unfold okcfg, base_config. cbn. rewrite SB, SR. exact P4. }
  intros ws Hws w1 w2 Hw.
  match goal with |- context [let '(_, _) := ?m (?s', w1) in _] => set (s1 := s') end.
  assert (HS : Rt (s1, w1) (s1, w2) /\ s_bucket s1 = fst (splace st) /\ s_root s1 = snd (splace st)).
  { unfold s1. cbn [s_multi set_writers set_fbuf]. destruct (s_multi s); (split; [split; [reflexivity|split; [exact Hw|exact Hws]]|split; [exact SB|exact SR]]). }
  destruct HS as (HS & HB & HR). clearbody s1.
  match goal with |- context [let '(_, _) := ?m (s1, w1) in _] => set (prog := m) end.
  assert (R : Rt (fst (prog (s1, w1))) (fst (prog (s1, w2))) /\ snd (prog (s1, w1)) = snd (prog (s1, w2))).
  { unfold prog. rewrite (bind_gen (create_metadata_sinks E)), (bind_gen (create_metadata_sinks E)). destruct (t_create_metadata _ _ P3 s1 w1 w2 HB HR HS) as [C1 C2]. destruct (create_metadata_sinks E (s1, w1)) as [tw1 r1], (create_metadata_sinks E (s1, w2)) as [tw2 r2]. cbn [fst snd] in *. subst r2.
    destruct r1 as [ok|e| |]; cbn [fst snd]; try (split; [exact C1|reflexivity]).
    assert (T : rt any (expectM ok "create_metadata_sinks_" ;;; ok <- write_base_metadata E ;; expectM ok "write_base_metadata_" ;;; ok <- write_group_metadata E ;; expectM ok "write_group_metadata_" ;;; ok <- write_external_metadata E ;; expectM ok "write_external_metadata_")).
    { bd; [st|]. bd; [apply t_base|]. bd; [st|]. bd; [apply t_group|]. bd; [st|]. bd; [apply t_external|]. st. }
    destruct (T tw1 tw2 C1) as (T1 & T2 & _). split; [exact T1|exact T2]. }
  clearbody prog. destruct (prog (s1, w1)) as [[s1' w1'] r1], (prog (s1, w2)) as [[s2' w2'] r2]. cbn [fst snd] in *. destruct R as [(A1 & A2 & A3) A4]. cbn [fst snd] in *. subst.
  destruct r2; cbn [fst snd obind]; (split; [try exact A2|split; [reflexivity|intros v V; try discriminate; try (injection V as <-; exact A3)]]). apply (r_drop s2' w1' w2' A2).
Qed.
Lemma t_frame i d : rt any (on_writer i (write_frame E d)).
Proof. apply t_on_writer. apply a_write_frame; auto. Qed.
Lemma t_multi bpp : forall fuel i d nb wd ht, rt any (multiscale_loop E bpp fuel i d nb wd ht).
Proof.
  induction fuel as [|f IH]; intros i d nb wd ht; cbn [multiscale_loop]; [st|]. tg. eapply rel_bind with (P := any); [st|intros [[[px nb'] w'] h'] _]. destruct (nth i (s_scaled a) None).
  - cbv zeta. bd; [apply t_frame|]. bd; [st|]. bd; [apply t_modT; intros s' X; exact X|]. apply IH.
  - apply t_modT. intros s' X. exact X.
Qed.
Lemma t_multiscale d nb : rt any (write_multiscale E d nb).
Proof. unfold write_multiscale. tg. destruct (s_multi a); [|st]. destruct (dt_count <=? s_dtype a); [st|]. bd; [st|]. apply t_multi. Qed.
Lemma t_append_loop : forall fuel d pos wr, rt any (append_loop E fuel d pos wr).
Proof.
  induction fuel as [|f IH]; intros d pos wr; cbn [append_loop]; [st|]. brk; [|st]. tg. cbv zeta. brk.
  - brk; [st|]. bd; [apply t_modT; intros s' X; exact X|]. brk; [|apply IH]. brk; [st|]. bd; [apply t_frame|]. brk; [st|]. bd; [apply t_modT; intros s' X; exact X|]. apply IH.
  - brk; brk; try st.
    + bd; [apply t_modT; intros s' X; exact X|]. apply IH.
    + bd; [apply t_frame|]. brk; [st|]. bd; [apply t_multiscale|]. apply IH.
Qed.
Lemma bind_look {A} (f : world -> M TW A) s w : bind (onT getM) f (s, w) = f w (s, w).
Proof. reflexivity. Qed.
Lemma t_append d : rt any (append E d).
Proof.
  unfold append. intros [s w1] [s' w2] HR. rewrite !bind_look.
  assert (X : forall b : bool, rt any (expectM b "Cannot append data: " ;;; append_loop E (S (List.length d)) d 0 0)) by (intros b; bd; [st|apply t_append_loop]).
  pose proof HR as HR'. destruct HR' as (_ & W & _). cbn [snd] in W. rewrite (r_err _ _ _ _ _ _ W). exact (X _ _ _ HR).
Qed.
Lemma t_api_append d o : rt any (api_append E d o).
Proof. unfold api_append. destruct d as [d|]; [|st]. destruct o; [|st]. apply rel_catch; [|intros; st]. bd; [apply t_append|st]. Qed.
Lemma t_msink i : rt any (finalize_msink E i).
Proof.
  intros [s w1] [s' w2] (X & Y & Z). cbn [fst snd] in *. subst s'. unfold finalize_msink. destruct (nth_error (s_msinks s) i) as [[k o]|]; [|split; [split; auto|split; [auto|discriminate]]].
  destruct (o_finalize E vp t1 t2 (o, w1) (o, w2) (conj eq_refl Y)) as ((A1 & A2) & A3 & _). destruct (finalize_sink E (o, w1)) as [[? ?] ?], (finalize_sink E (o, w2)) as [[? ?] ?]. cbn [fst snd] in *. subst. split; [split; [reflexivity|split; auto]|]. split; [reflexivity|intros; exact I].
Qed.
Lemma t_all_ok {A} (f : A -> M TW bool) l : (forall a, rt any (f a)) -> rt any (all_ok f l).
Proof. intros H. induction l as [|a l IH]; cbn [all_ok]; [st|]. bd; [apply H|]. brk; [exact IH|st]. Qed.
Lemma t_finalize : rt any (finalize_stream E).
Proof.
  unfold finalize_stream. bd; [apply t_group|]. brk; [|st]. tg. bd; [apply t_all_ok; apply t_msink|]. brk; [|st]. bd; [apply t_modT; intros s' X; exact X|]. tg. bd; [apply t_all_ok; intros i; apply t_on_writer, a_finalize; auto|]. brk; [|st].
  bd; [apply t_modT; intros s' X; constructor|]. st.
Qed.
Lemma r_api_create st : okplace st -> rw (fun o => match o with Some s => okstream s | None => True end) (api_create E (Some st)).
Proof. intros H. unfold api_create. apply rel_catch; [|intros; apply rel_ret; exact I]. eapply rel_bind; [apply r_new; auto|]. intros s Hs. apply rel_ret. exact Hs. Qed.
End Indep.
