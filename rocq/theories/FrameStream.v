(** The invariants of FrameProofs for a stream and its whole life. *)
Require Import ZArith List Bool String Ascii Lia.
Require Import Verif.Base Verif.Dim Verif.Json Verif.World Verif.Writer Verif.FrameProofs Verif.Stream Verif.Api.
Import ListNotations.
Open Scope string_scope. Open Scope list_scope. Open Scope Z_scope.

Section Frame.
Variables (E : env) (okdir okfile okrm : string -> Prop) (okobj : string -> string -> Prop) (okm : string -> Prop) (okp : string -> Prop).
Hypothesis msg : forall m, m <> ""%string -> okm m.
Hypothesis okp_dir : forall p, okp p -> okdir p.
Hypothesis okp_file : forall p, okp p -> okfile p.
Hypothesis okp_parent : forall p, okp p -> okdir (parent_path p).
Hypothesis okp_sub : forall p x, okp p -> okp (p ++ "/" ++ x)%string.
Hypothesis okp_ext : forall p k, okp p -> okp (p ++ (if String.eqb p "" then dec k else "/" ++ dec k))%string.
Hypothesis okobj_sub : forall b p x, okobj b p -> okobj b (p ++ "/" ++ x)%string.
Hypothesis okobj_ext : forall b p k, okobj b p -> okobj b (p ++ (if String.eqb p "" then dec k else "/" ++ dec k))%string.
Notation Iw := (Iw okdir okfile okrm okobj okm).
Notation okwriter := (okwriter okfile okobj okm okp).
Notation okmsinks := (okmsinks okfile okobj).
Notation oksink := (oksink okfile okobj).
Definition okstream (s : stream) : Prop := Forall okwriter (s_writers s) /\ okmsinks (s_msinks s).
Definition It (tw : TW) : Prop := Iw (snd tw) /\ okstream (fst tw).
Notation pt := (pres It).
Notation pw := (pres Iw).
Lemma t_onT {A} (Q : A -> Prop) m : pw Q m -> pt Q (onT m).
Proof. intros H [a w] [X Y]. unfold onT. cbn [fst snd] in *. specialize (H w X). destruct (m w) as [w' r]. cbn in *. destruct H. split; [split; auto|auto]. Qed.
Lemma t_getT : pt okstream getT.
Proof. intros [a w] [X Y]. split; [split; auto|]. cbn. intros v Z. injection Z as <-. auto. Qed.
Lemma t_modT f : (forall a, okstream a -> okstream (f a)) -> pt any (modT f).
Proof. intros H [a w] [X Y]. split; [split; cbn; auto|]. intros; exact I. Qed.
Lemma Forall_upd {A} (P : A -> Prop) l i o : Forall P l -> P o -> Forall P (upd l i o).
Proof.
  intros H1 H2. unfold upd. apply Forall_app. rewrite <- (firstn_skipn i l) in H1. apply Forall_app in H1 as [X Y]. split; auto. destruct (skipn i l); constructor; auto. inversion Y; auto.
Qed.
Lemma t_on_writer {A} (Q : A -> Prop) i m : pres (Ia okdir okfile okrm okobj okm okp) Q m -> pt Q (on_writer i m).
Proof.
  intros H [s w] [X (Y1 & Y2)]. cbn [fst snd] in *. unfold on_writer. destruct (nth_error (s_writers s) i) as [a|] eqn:N; [|split; [split; [auto|split; auto]|discriminate]].
  assert (Z : okwriter a) by (rewrite Forall_forall in Y1; apply Y1; eapply nth_error_In; eauto). specialize (H (a, w) (conj X Z)). destruct (m (a, w)) as [[a' w'] r]. cbn in *. destruct H as [[H1 H2] H3].
  split; [|auto]. split; [auto|]. split; [apply Forall_upd; auto|auto].
Qed.
Ltac st := first
  [ apply pres_ret; first [exact I|assumption]
  | apply pres_throw | apply pres_ub | apply pres_hang
  | apply pres_expect; first [exact I|assumption]
  | apply pres_lift; intros; first [exact I|assumption]
  | apply p_emit | apply p_tick | apply p_isdir | apply p_exists | apply p_conn | apply p_return | apply p_request
  | apply p_err; apply msg; discriminate ].
Ltac bd := eapply pres_bind with (P := any); [|intros ? _].
Ltac tg := eapply pres_bind; [apply t_getT|intros ? ?].
Lemma p_create_store s : (s_bucket s = None -> okrm (s_root s) /\ okdir (s_root s)) -> pw any (create_store E s).
Proof.
  intros H0. unfold create_store. destruct (s_bucket s) as [b|]; [|destruct (H0 eq_refl) as [H1 H2]].
  - bd; [apply pres_mod; [exact I|]; intros w H; exact H|]. bd.
    + induction (e_conns E) as [|n IH]; cbn [open_connections]; [st|]. eapply pres_bind; [apply p_request|intros [ok id] _]. bd; [destruct ok; st|exact IH].
    + eapply pres_bind; [apply pres_get|intros w _]. destruct (Nat.eqb (w_conns w) 0); [bd; st|]. bd; [st|]. eapply pres_bind; [apply p_request|intros [ok id] _]. destruct ok; bd; st.
  - bd; [st|]. bd; [destruct a; [apply p_rm; auto|st]|]. destruct a0; [|bd; st]. bd; [apply p_mkdirs; auto|]. destruct a0; [st|bd; st].
Qed.
Lemma t_write_metadata k d err : err <> ""%string -> pt any (write_metadata E k d err).
Proof.
  intros He [s w] [X (Y1 & Y2)]. cbn [fst snd] in *. unfold write_metadata. destruct (find_key k (s_msinks s)) as [i|]; [|split; [split; [auto|split; auto]|discriminate]].
  destruct (nth i (s_msinks s) (k, None)) as [k' [sk|]] eqn:N.
  - assert (Z : oksink sk). { unfold FrameProofs.okmsinks in Y2. rewrite Forall_forall in Y2. destruct (nth_in_or_default i (s_msinks s) (k, None)) as [W|W]; [|rewrite N in W; discriminate]. specialize (Y2 _ W). rewrite N in Y2. exact Y2. }
    destruct (k_write E okdir okfile okrm okobj okm 0 d (sk, w) (conj X Z)) as [[A B] _]. destruct (sink_write E 0 d (sk, w)) as [[sk' w'] r]. cbn [fst snd] in A, B.
    assert (OS : okstream (set_msinks s (upd (s_msinks s) i (k', Some sk')))) by (split; [exact Y1|apply Forall_upd; auto]).
    destruct r as [[]|m| |]; try (split; [split; cbn [fst snd]; assumption|intros; exact I]).
    refine (t_onT any (set_error err ;;; ret false) _ (set_msinks s (upd (s_msinks s) i (k', Some sk')), w') (conj A OS)). bd; [apply p_err; auto|st].
  - refine (t_onT any (set_error _ ;;; ret false) _ (s, w) (conj X (conj Y1 Y2))). bd; st.
Qed.
Lemma t_base : pt any (write_base_metadata E).
Proof. unfold write_base_metadata. tg. destruct (base_metadata a). apply t_write_metadata. discriminate. Qed.
Lemma t_group : pt any (write_group_metadata E).
Proof. unfold write_group_metadata. tg. destruct (group_metadata a). apply t_write_metadata. discriminate. Qed.
Lemma t_external : pt any (write_external_metadata E).
Proof. unfold write_external_metadata. tg. destruct (String.eqb _ _); [st|]. apply t_write_metadata. discriminate. Qed.
(** where the metadata documents go *)
Definition okroot (bucket : option string) (root : string) : Prop :=
  match bucket with Some b => forall x, okobj b (root ++ "/" ++ x)%string | None => okdir (strip_file root) /\ forall x, okp (strip_file root ++ "/" ++ x)%string end.
Lemma t_create_metadata b r : okroot b r -> forall s w, s_bucket s = b -> s_root s = r -> It (s, w) -> It (fst (create_metadata_sinks E (s, w))).
Proof.
  intros H s w Hb Hr HI. unfold create_metadata_sinks.
  assert (P : pw (fun o => match o with Some l => okmsinks l | None => True end)
    (catchM (r0 <- match b with Some b0 => make_metadata_sinks_s3 E (if s_v3 s then 3 else 2) b0 r | None => l <- make_metadata_sinks_fs E (if s_v3 s then 3 else 2) r ;; ret (Some l) end ;;
      match r0 with Some l => ret (Some l) | None => set_error "Error creating metadata sinks" ;;; ret None end) (fun m => set_error ("Error creating metadata sinks: " ++ m)%string ;;; ret None))).
  { apply pres_catch.
    - eapply pres_bind with (P := fun o => match o with Some l => okmsinks l | None => True end).
      + destruct b as [b|]; [apply p_meta_s3; auto|]. destruct H. eapply pres_bind; [eapply p_meta_fs with (okp := okp); eauto|]. intros l Hl. apply pres_ret. exact Hl.
      + intros [l|] Hl; [apply pres_ret; auto|]. bd; st; exact I.
    - intros m. bd; [st|]. apply pres_ret. exact I. }
  assert (Q : pt any (fun tw => (r0 <- onT (catchM (r0 <- match b with Some b0 => make_metadata_sinks_s3 E (if s_v3 s then 3 else 2) b0 r | None => l <- make_metadata_sinks_fs E (if s_v3 s then 3 else 2) r ;; ret (Some l) end ;;
      match r0 with Some l => ret (Some l) | None => set_error "Error creating metadata sinks" ;;; ret None end) (fun m => set_error ("Error creating metadata sinks: " ++ m)%string ;;; ret None)) ;;
      match r0 with Some l => modT (fun s => set_msinks s l) ;;; ret true | None => ret false end) tw)).
  { eapply pres_bind; [apply t_onT; exact P|]. intros [l|] Hl; [|st]. bd; [|st]. apply t_modT. intros s' (Z1 & Z2). split; auto. }
  destruct (Q (s, w) HI) as [R _]. unfold bind at 1, getT. cbn [fst]. rewrite Hb, Hr. exact R.
Qed.
(** writers of a new stream *)
Lemma new_writer_ok v3 c a : make_writer v3 c = Ok a -> (v3 = true -> okm ""%string) -> okcfg okobj okp c -> okwriter a.
Proof.
  unfold make_writer. destruct v3.
  - destruct (number_of_shards (c_dims c)); try discriminate. cbn. intros H HM HC. injection H as <-. split; [constructor|]. split; [exact I|]. split; auto.
  - intros H HM HC. injection H as <-. split; [constructor|]. split; [exact I|]. split; auto.
Qed.
Lemma pyramid_ok v3 : (v3 = true -> okm ""%string) -> forall fuel c l, okcfg okobj okp c -> pyramid fuel v3 c = Ok l -> Forall okwriter l.
Proof.
  intros HM. induction fuel as [|f IH]; intros c l HC; cbn [pyramid]; [discriminate|]. destruct (downsample c) as [[c' again]| | |] eqn:D; try discriminate. cbn [obind].
  assert (HC' : okcfg okobj okp c'). { unfold downsample in D. destruct (omap downsample_dim (c_dims c)); try discriminate. cbn [obind] in D. destruct (make_dimensions a); try discriminate. cbn [obind] in D. injection D as <- _. exact HC. }
  destruct (make_writer v3 c') as [a| | |] eqn:MW; try discriminate. cbn [obind]. destruct again.
  - destruct (pyramid f v3 c') as [l'| | |] eqn:P; try discriminate. intros X. injection X as <-. constructor; eauto using new_writer_ok.
  - intros X. injection X as <-. constructor; [eapply new_writer_ok; eauto|constructor].
Qed.
Lemma writers_ok s l : (s_v3 s = true -> okm ""%string) -> okcfg okobj okp (base_config s) -> create_writers s = Ok l -> Forall okwriter l.
Proof.
  intros HM HC. unfold create_writers. destruct (make_writer (s_v3 s) (base_config s)) as [a| | |] eqn:MW; try discriminate. cbn [obind]. destruct (s_multi s).
  - destruct (pyramid pyramid_fuel (s_v3 s) (base_config s)) as [l'| | |] eqn:P; try discriminate. intros X. injection X as <-. constructor; [eapply new_writer_ok; eauto|eapply pyramid_ok; eauto].
  - intros X. injection X as <-. constructor; [eapply new_writer_ok; eauto|constructor].
Qed.
(** what the settings say about the place *)
Definition place (st : settings) : option string * string := (option_map (fun x => opt_trim (x_bucket x)) (st_s3 st), opt_trim (st_path st)).
Definition okplace (st : settings) : Prop :=
  (fst (place st) = None -> okrm (snd (place st)) /\ okdir (snd (place st))) /\ okroot (fst (place st)) (snd (place st)) /\
  match fst (place st) with Some b => forall x, okobj b (snd (place st) ++ "/" ++ x)%string | None => forall x, okp (strip_file (snd (place st) ++ "/" ++ x)%string) end.
Lemma commit_place st s : commit st = Ok s -> (s_bucket s, s_root s) = place st /\ s_v3 s = (st_version st =? 3) /\ s_writers s = [] /\ s_msinks s = [].
Proof. unfold commit. destruct (make_dimensions _); try discriminate. cbn [obind]. intros H. injection H as <-. repeat split. Qed.
Lemma p_drop s : okstream s -> pw any (drop_msinks s).
Proof.
  intros (_ & X). unfold drop_msinks. apply pres_miter. intros [k o] Ho. cbn [snd]. destruct o as [sk|]; [|st]. unfold FrameProofs.okmsinks in X. rewrite Forall_forall in X. apply p_destroy. exact (X _ Ho).
Qed.
Lemma p_new st : okplace st -> (st_version st = 3 -> okm ""%string) -> pw okstream (new_stream E (Some st)).
Proof.
  intros (P1 & P3 & P4) HV. assert (N : forall m : M world stream, pw okstream m -> pw okstream (fun w => match validate_settings E w (Some st) with Ok true => m w | Ok false => (w, Throw "Invalid Zarr stream settings") | Throw e => (w, Throw e) | UB => (w, UB) | Hang => (w, Hang) end)).
  { intros m Hm w Hw. destruct (validate_settings E w (Some st)) as [[]|e| |]; try (split; [auto|discriminate]). apply Hm. auto. }
  refine (N _ _).
  eapply pres_bind with (P := fun s => (s_bucket s, s_root s) = place st /\ s_v3 s = (st_version st =? 3) /\ s_writers s = [] /\ s_msinks s = []); [apply pres_lift; apply commit_place|]. intros s (S1 & S2 & S3 & S4).
  assert (SR : s_root s = snd (place st)) by (rewrite <- S1; reflexivity). assert (SB : s_bucket s = fst (place st)) by (rewrite <- S1; reflexivity).
  bd; [st|]. cbv zeta. bd; [apply p_create_store; cbn; rewrite SR, SB; auto|]. bd; [st|].
  eapply pres_bind with (P := Forall okwriter).
  { apply pres_lift. intros v V. eapply writers_ok; [| |exact V].
    - cbn. rewrite S2. intros X. apply HV. apply Z.eqb_eq. exact X.
    - unfold okcfg, base_config. cbn. rewrite SB, SR. exact P4. }
  intros ws Hws w Hw.
  match goal with |- context [let '(_, _) := ?m (?s', w) in _] => set (s1 := s') end.
  assert (HS : It (s1, w) /\ s_bucket s1 = fst (place st) /\ s_root s1 = snd (place st)).
  { unfold s1. assert (O : okmsinks (s_msinks s)) by (rewrite S4; constructor). cbn [s_multi set_writers set_fbuf]. destruct (s_multi s); (split; [split; [exact Hw|split; [exact Hws|exact O]]|split; [exact SB|exact SR]]). }
  destruct HS as (HS & HB & HR). clearbody s1.
  assert (R : It (fst ((ok <- create_metadata_sinks E ;; expectM ok "create_metadata_sinks_" ;;; ok <- write_base_metadata E ;; expectM ok "write_base_metadata_" ;;; ok <- write_group_metadata E ;; expectM ok "write_group_metadata_" ;;; ok <- write_external_metadata E ;; expectM ok "write_external_metadata_") (s1, w)))).
  { unfold bind at 1. pose proof (t_create_metadata _ _ P3 s1 w HB HR HS) as C. destruct (create_metadata_sinks E (s1, w)) as [tw [ok|e| |]]; cbn [fst] in *; try exact C.
    revert tw C. assert (T : pt any (expectM ok "create_metadata_sinks_" ;;; ok <- write_base_metadata E ;; expectM ok "write_base_metadata_" ;;; ok <- write_group_metadata E ;; expectM ok "write_group_metadata_" ;;; ok <- write_external_metadata E ;; expectM ok "write_external_metadata_")).
    { bd; [st|]. bd; [apply t_base|]. bd; [st|]. bd; [apply t_group|]. bd; [st|]. bd; [apply t_external|]. st. }
    intros tw C. apply (T tw C). }
  match goal with |- context [let '(_, _) := ?m in _] => destruct m as [[s' w'] r] end. cbn [fst snd] in *. destruct R as [R1 R2]. destruct r; (split; [try exact R1|intros v V; try discriminate; try (injection V as <-; exact R2)]). apply (p_drop s' R2 w' R1).
Qed.
Lemma t_frame i d : pt any (on_writer i (write_frame E d)).
Proof. apply t_on_writer. apply a_write_frame; auto. Qed.
Lemma t_multi bpp : forall fuel i d nb wd ht, pt any (multiscale_loop E bpp fuel i d nb wd ht).
Proof.
  induction fuel as [|f IH]; intros i d nb wd ht; cbn [multiscale_loop]; [st|]. tg. eapply pres_bind with (P := any); [st|intros [[[px nb'] w'] h'] _]. destruct (nth i (s_scaled a) None).
  - cbv zeta. bd; [apply t_frame|]. bd; [st|]. bd; [apply t_modT; intros s' X; exact X|]. apply IH.
  - apply t_modT. intros s' X. exact X.
Qed.
Lemma t_multiscale d nb : pt any (write_multiscale E d nb).
Proof. unfold write_multiscale. tg. destruct (s_multi a); [|st]. destruct (dt_count <=? s_dtype a); [st|]. bd; [st|]. apply t_multi. Qed.
Ltac brk := match goal with |- pres _ _ (if ?b then _ else _) => destruct b end.
Lemma t_append_loop : forall fuel d pos wr, pt any (append_loop E fuel d pos wr).
Proof.
  induction fuel as [|f IH]; intros d pos wr; cbn [append_loop]; [st|]. brk; [|st]. tg. cbv zeta. brk.
  - brk; [st|]. bd; [apply t_modT; intros s' X; exact X|]. brk; [|apply IH]. brk; [st|]. bd; [apply t_frame|]. brk; [st|]. bd; [apply t_modT; intros s' X; exact X|]. apply IH.
  - brk; brk; try st.
    + bd; [apply t_modT; intros s' X; exact X|]. apply IH.
    + bd; [apply t_frame|]. brk; [st|]. bd; [apply t_multiscale|]. apply IH.
Qed.
Lemma t_append d : pt any (append E d).
Proof. unfold append. bd; [apply t_onT; eapply pres_weak; [apply pres_get|intros; exact I]|]. bd; [st|]. apply t_append_loop. Qed.
Lemma t_api_append d o : pt any (api_append E d o).
Proof. unfold api_append. destruct d as [d|]; [|st]. destruct o; [|st]. apply pres_catch; [|intros; st]. bd; [apply t_append|st]. Qed.
Lemma t_msink i : pt any (finalize_msink E i).
Proof.
  intros [s w] [X (Y1 & Y2)]. cbn [fst snd] in *. unfold finalize_msink. destruct (nth_error (s_msinks s) i) as [[k o]|] eqn:N; [|split; [split; [auto|split; auto]|discriminate]].
  assert (Z : FrameProofs.okslot okfile okobj o). { unfold FrameProofs.okmsinks in Y2. rewrite Forall_forall in Y2. apply nth_error_In in N. exact (Y2 _ N). }
  destruct (o_finalize E okdir okfile okrm okobj okm (o, w) (conj X Z)) as [[A B] _]. destruct (finalize_sink E (o, w)) as [[o' w'] r]. cbn [fst snd] in *. split; [|intros; exact I]. split; [exact A|]. split; [exact Y1|]. apply Forall_upd; auto.
Qed.
Lemma t_all_ok {A} (f : A -> M TW bool) l : (forall a, pt any (f a)) -> pt any (all_ok f l).
Proof. intros H. induction l as [|a l IH]; cbn [all_ok]; [st|]. bd; [apply H|]. brk; [exact IH|st]. Qed.
Lemma t_finalize : pt any (finalize_stream E).
Proof.
  unfold finalize_stream. bd; [apply t_group|]. brk; [|st]. tg. bd; [apply t_all_ok; apply t_msink|]. brk; [|st]. bd; [apply t_modT; intros s' (X & Y); split; [exact X|constructor]|]. tg. bd; [apply t_all_ok; intros i; apply t_on_writer, a_finalize; auto|]. brk; [|st].
  bd; [apply t_modT; intros s' (X & Y); split; [constructor|exact Y]|]. st.
Qed.
Lemma t_appends l : pt any (api_appends E l).
Proof. induction l as [|d l IH]; cbn [api_appends]; [st|]. bd; [apply t_api_append|]. bd; [exact IH|]. st. Qed.
Lemma p_session st calls : okplace st -> (st_version st = 3 -> okm ""%string) -> pw any (session E st calls).
Proof.
  intros HP HV. unfold session. eapply pres_bind with (P := fun o => match o with Some s => okstream s | None => True end).
  - unfold api_create. apply pres_catch; [|intros; apply pres_ret; exact I]. eapply pres_bind; [apply p_new; auto|]. intros s Hs. apply pres_ret. exact Hs.
  - intros [s|] Hs; [|st]. intros w Hw. assert (T : pt any (rs <- api_appends E calls ;; d <- api_destroy E ;; ret (Some (rs, d)))). { bd; [apply t_appends|]. bd; [apply t_finalize|]. st. }
    destruct (T (s, w) (conj Hw Hs)) as [[X _] _]. match goal with |- context [let '(_, _) := ?m in _] => destruct m as [[s' w'] r] end. cbn [fst snd] in *. split; [exact X|intros; exact I].
Qed.
End Frame.
