(** The same for a stream: which files and objects a session can touch, whatever the environment does. *)
Require Import ZArith List Bool String Ascii Lia.
Require Import Verif.Base Verif.Spec Verif.Dim Verif.Limits Verif.Radix Verif.DimProofs Verif.ShardProofs Verif.PathProofs Verif.Json Verif.World Verif.Writer Verif.LayoutProofs Verif.FrameProofs Verif.GridProofs Verif.Stream Verif.Api Verif.FrameStream Verif.SafeStream.
Import ListNotations.
Open Scope string_scope. Open Scope list_scope. Open Scope Z_scope.

Notation Iwf okf := (Iw okd okf okd (oko okf) okd).
Ltac st := first
  [ apply pres_ret; first [exact I|assumption|auto]
  | apply pres_throw | apply pres_ub | apply pres_hang
  | apply pres_expect; first [exact I|assumption]
  | apply pres_lift; intros; first [exact I|assumption]
  | apply p_err; exact I | apply p_request ].
Ltac bd := eapply pres_bind with (P := any); [|intros ? _].
Tactic Notation "bn" ident(x) := eapply pres_bind with (P := any); [|intros x _].

(** *** The documents of the store *)
Section Docs.
Variables (E : env) (v3 : bool) (okf : string -> Prop) (W : stream -> Prop).
Hypothesis W_ms : forall s l, W s -> W (set_msinks s l).
Hypothesis W_v : forall s, W s -> s_v3 s = v3.
Notation pw := (pres (Iwf okf)).
Notation okms := (okmsinks okf (oko okf)).
Definition Id (tw : TW) : Prop := Iwf okf (snd tw) /\ W (fst tw) /\ okms (s_msinks (fst tw)).
Notation pd := (pres Id).
Lemma d_onT {A} (Q : A -> Prop) m : pw Q m -> pd Q (onT m).
Proof. intros H [a w] [X Y]. unfold onT. cbn [fst snd] in *. specialize (H w X). destruct (m w) as [w' r]. cbn in *. destruct H. split; [split; auto|auto]. Qed.
Lemma d_getT : pd (fun s => W s /\ okms (s_msinks s)) getT.
Proof. intros [a w] [X Y]. split; [split; auto|]. cbn. intros v Z. injection Z as <-. auto. Qed.
Ltac tg := eapply pres_bind; [apply d_getT|intros ? ?].
Lemma d_write_metadata k d err : pd any (write_metadata E k d err).
Proof.
  intros [s w] [X (Y1 & Y2)]. cbn [fst snd] in *. unfold write_metadata. destruct (find_key k (s_msinks s)) as [i|]; [|split; [split; [auto|split; auto]|discriminate]].
  destruct (nth i (s_msinks s) (k, None)) as [k' [sk|]] eqn:N.
  - assert (Z : oksink okf (oko okf) sk). { unfold FrameProofs.okmsinks in Y2. rewrite Forall_forall in Y2. destruct (nth_in_or_default i (s_msinks s) (k, None)) as [V|V]; [|rewrite N in V; discriminate]. specialize (Y2 _ V). rewrite N in Y2. exact Y2. }
    destruct (k_write E okd okf okd (oko okf) okd 0 d (sk, w) (conj X Z)) as [[A B] _]. destruct (sink_write E 0 d (sk, w)) as [[sk' w'] r]. cbn [fst snd] in A, B.
    assert (OS : W (set_msinks s (upd (s_msinks s) i (k', Some sk'))) /\ okms (s_msinks (set_msinks s (upd (s_msinks s) i (k', Some sk'))))) by (split; [auto|apply Forall_upd; auto]).
    destruct r as [[]|m| |]; try (split; [split; cbn [fst snd]; assumption|intros; exact I]).
  - refine (d_onT any (set_error _ ;;; ret false) _ (s, w) (conj X (conj Y1 Y2))). bd; st.
Qed.
Lemma d_base : pd any (write_base_metadata E).
Proof. unfold write_base_metadata. tg. destruct (base_metadata a). apply d_write_metadata. Qed.
Lemma d_group : pd any (write_group_metadata E).
Proof. unfold write_group_metadata. tg. destruct (group_metadata a). apply d_write_metadata. Qed.
Lemma d_external : pd any (write_external_metadata E).
Proof. unfold write_external_metadata. tg. destruct (String.eqb _ _); [st|]. apply d_write_metadata. Qed.
Lemma d_msink i : pd any (finalize_msink E i).
Proof.
  intros [s w] [X (Y1 & Y2)]. cbn [fst snd] in *. unfold finalize_msink. destruct (nth_error (s_msinks s) i) as [[k o]|] eqn:N; [|split; [split; [auto|split; auto]|discriminate]].
  assert (Z : okslot okf (oko okf) o). { unfold FrameProofs.okmsinks in Y2. rewrite Forall_forall in Y2. apply nth_error_In in N. exact (Y2 _ N). }
  destruct (o_finalize E okd okf okd (oko okf) okd (o, w) (conj X Z)) as [[A B] _]. destruct (finalize_sink E (o, w)) as [[o' w'] r]. cbn [fst snd] in *. split; [|intros; exact I]. split; [exact A|]. split; [cbn; auto|]. apply Forall_upd; auto.
Qed.
Lemma d_all_ok {A} (f : A -> M TW bool) l : (forall a, pd any (f a)) -> pd any (all_ok f l).
Proof. intros H. induction l as [|a l IH]; cbn [all_ok]; [st|]. bn ok; [apply H|]. destruct ok; [exact IH|st]. Qed.
Variable root : string.
Hypothesis Hdoc : forall k, In k (names v3) -> okf (root ++ "/" ++ k)%string.
Lemma ver_names l : metadata_paths (if v3 then 3 else 2) = Ok l -> l = names v3.
Proof. unfold metadata_paths, names. destruct v3; cbn; congruence. Qed.
Lemma p_meta_fs : strip_file root = root -> pw okms (make_metadata_sinks_fs E (if v3 then 3 else 2) root).
Proof.
  intros HR. unfold make_metadata_sinks_fs. rewrite HR. cbv zeta. eapply pres_bind with (P := any); [st|intros ? _].
  eapply pres_bind with (P := fun l => l = names v3); [apply pres_lift; apply ver_names|]. intros l ->. eapply pres_bind; [apply p_dirs|intros ok _]. eapply pres_bind with (P := any); [st|intros ? _].
  eapply pres_bind; [apply p_dirs|intros ok2 _]. eapply pres_bind with (P := any); [st|intros ? _].
  apply pres_mfold; [|constructor]. intros acc n Hn Hacc. eapply pres_bind; [apply p_file_sink; apply Hdoc; auto|]. intros f Hf. eapply pres_bind; [apply p_done|intros ? _]. apply pres_ret. apply Forall_app. split; auto. repeat constructor. cbn. rewrite Hf. auto.
Qed.
Lemma p_meta_s3 b : pw (fun o => match o with Some l => okms l | None => True end) (make_metadata_sinks_s3 E (if v3 then 3 else 2) b root).
Proof.
  unfold make_metadata_sinks_s3. eapply pres_bind with (P := any); [st|intros ? _]. eapply pres_bind with (P := any); [st|intros ? _]. eapply pres_bind; [apply p_bucket; intros; exact I|intros ok _]. destruct ok; [|apply pres_ret; exact I].
  eapply pres_bind with (P := fun l => l = names v3); [apply pres_lift; apply ver_names|]. intros l ->.
  eapply pres_bind with (P := okms).
  - apply pres_mfold; [|constructor]. intros acc n Hn Hacc. eapply pres_bind; [apply p_s3_sink; apply Hdoc; auto|]. intros s Hs. apply pres_ret. apply Forall_app. split; auto; repeat constructor; auto.
  - intros l Hl. apply pres_ret. exact Hl.
Qed.
Lemma d_create_metadata b : (b = None -> strip_file root = root) -> forall s w, s_bucket s = b -> s_root s = root -> Id (s, w) -> Id (fst (create_metadata_sinks E (s, w))).
Proof.
  intros H s w Hb Hr HI. unfold create_metadata_sinks.
  assert (P : pw (fun o => match o with Some l => okms l | None => True end)
    (catchM (r0 <- match b with Some b0 => make_metadata_sinks_s3 E (if v3 then 3 else 2) b0 root | None => l <- make_metadata_sinks_fs E (if v3 then 3 else 2) root ;; ret (Some l) end ;;
      match r0 with Some l => ret (Some l) | None => set_error "Error creating metadata sinks" ;;; ret None end) (fun m => set_error ("Error creating metadata sinks: " ++ m)%string ;;; ret None))).
  { apply pres_catch.
    - eapply pres_bind with (P := fun o => match o with Some l => okms l | None => True end).
      + destruct b as [b|]; [apply p_meta_s3; auto|]. eapply pres_bind; [apply p_meta_fs; auto|]. intros l Hl. apply pres_ret. exact Hl.
      + intros [l|] Hl; [apply pres_ret; auto|]. bd; st; exact I.
    - intros m. bd; [st|]. apply pres_ret. exact I. }
  assert (Q : pd any (fun tw => (r0 <- onT (catchM (r0 <- match b with Some b0 => make_metadata_sinks_s3 E (if v3 then 3 else 2) b0 root | None => l <- make_metadata_sinks_fs E (if v3 then 3 else 2) root ;; ret (Some l) end ;;
      match r0 with Some l => ret (Some l) | None => set_error "Error creating metadata sinks" ;;; ret None end) (fun m => set_error ("Error creating metadata sinks: " ++ m)%string ;;; ret None)) ;;
      match r0 with Some l => modT (fun s => set_msinks s l) ;;; ret true | None => ret false end) tw)).
  { eapply pres_bind; [apply d_onT; exact P|]. intros [l|] Hl; [|st]. bd; [|st]. intros [s' w'] (Z1 & Z2 & Z3). split; [|intros; exact I]. split; [exact Z1|]. split; [cbn; auto|exact Hl]. }
  destruct (Q (s, w) HI) as [R _]. unfold bind at 1, getT. cbn [fst]. destruct HI as (_ & HI & _). cbn [fst] in HI. rewrite Hb, Hr, (W_v _ HI). exact R.
Qed.
Lemma d_drop s w : Iwf okf w -> okms (s_msinks s) -> Iwf okf (fst (drop_msinks s w)).
Proof.
  intros H X. assert (P : pw any (drop_msinks s)); [|apply (P w H)]. unfold drop_msinks. apply pres_miter. intros [k o] Ho. cbn [snd]. destruct o as [sk|]; [|st]. unfold FrameProofs.okmsinks in X. rewrite Forall_forall in X. apply p_destroy. exact (X _ Ho).
Qed.
End Docs.

(** *** Frames, level by level *)
Section St.
Variables (E : env) (v3 : bool) (bpp : Z) (L : list geo) (okf : string -> Prop) (NN : nat -> Z) (strict : bool) (total fb : Z) (root : string).
Record lev (i : nat) (g : geo) : Prop := {
  l_f : fits bpp (g_0 g) (g_m g) (g_y g) (g_x g);
  l_s : v3 = true -> fits_shards (g_0 g) (g_m g) (g_y g) (g_x g);
  l_d : c_dims (g_c g) = g_0 g :: g_m g ++ [g_y g; g_x g];
  l_r : c_root (g_c g) <> "";
  l_p : c_bucket (g_c g) = None -> String.prefix "file:" (c_root (g_c g)) = false;
  l_data : forall q cc, 0 <= q -> q * per v3 (g_0 g) (g_m g) < NN i -> in_bounds (map (np v3) (g_m g ++ [g_y g; g_x g])) cc -> okf (join_path (c_root (g_c g)) (data_comps v3 (c_level (g_c g)) q ++ map dec cc));
  l_meta : okf (join_path (c_root (g_c g)) (meta_comps v3 (c_level (g_c g)))) }.
Hypothesis HL : forall i g, nth_error L i = Some g -> lev i g.
Hypothesis Hdoc : forall k, In k (names v3) -> okf (root ++ "/" ++ k)%string.
Hypothesis Hfb : 0 < fb.
Hypothesis H32 : total < 2 ^ 32.
Hypothesis N_coarse : strict = false -> forall i, total + 1 <= NN i.
Hypothesis N_fine : strict = true -> forall i, total / 2 ^ Z.of_nat i <= NN i.
Definition gg (g : geo) (a : writer) : Prop := grown v3 (g_0 g) (g_m g) (g_c g) okf a.
Definition gt (g : geo) (a : writer) : Prop := tight v3 (g_0 g) (g_m g) a.
(** frames written at a level; whether a frame waits for its partner *)
Definition fr (s : stream) (i : nat) : Z := match nth_error (s_writers s) i with Some a => a_frames a | None => 0 end.
Definition pend (s : stream) (i : nat) : Z := match nth i (s_scaled s) None with Some _ => 1 | None => 0 end.
Record ss (m : Z) (k : nat) (e : nat -> Z) (s : stream) : Prop := {
  x_w : Forall2 gg L (s_writers s);
  x_off : s_foff s = 0;
  x_buf : zlen (s_fbuf s) = fb;
  x_v : s_v3 s = v3;
  x_n : forall i, fr s i <= m + (if Nat.ltb i k then 1 else 0);
  x_t : strict = true -> Forall2 gt L (s_writers s);
  x_p : strict = true -> forall j, (1 <= j)%nat -> (j < List.length L)%nat -> 2 * fr s j + pend s j + e j <= fr s (j - 1) }.
Notation okms := (okmsinks okf (oko okf)).
Definition T (m : Z) (k : nat) (e : nat -> Z) : TW -> Prop := Id okf (ss m k e).
Definition e0 (_ : nat) : Z := 0.
Definition ek (k j : nat) : Z := if Nat.eqb j k then 1 else 0.
Definition Fl (m : Z) (tw : TW) : Prop := strict = false -> T m 0 e0 tw.
Lemma ss_mono m k e m' e' s : ss m k e s -> m + (if Nat.ltb 0 k then 1 else 0) <= m' -> (strict = true -> forall j, (1 <= j)%nat -> e' j <= e j) -> ss m' 0 e' s.
Proof.
  intros [X1 X2 X3 X4 X5 X6 X7] Hm He. split; auto.
  - intros i. specialize (X5 i). cbn [Nat.ltb Nat.leb]. destruct k; [cbn in *; lia|]. cbn [Nat.ltb Nat.leb] in Hm. destruct (Nat.ltb i (S k)); lia.
  - intros S1 j J1 J2. specialize (X7 S1 j J1 J2). specialize (He S1 j J1). lia.
Qed.
Lemma T_mono m k e m' e' tw : T m k e tw -> m + (if Nat.ltb 0 k then 1 else 0) <= m' -> (strict = true -> forall j, (1 <= j)%nat -> e' j <= e j) -> T m' 0 e' tw.
Proof. intros (X & Y & Z) Hm He. split; auto. split; auto. eapply ss_mono; eauto. Qed.
Lemma T_fail m k e m' tw : T m k e tw -> m + 1 <= m' -> Fl m' tw.
Proof. intros H Hm S0. eapply T_mono; [exact H|destruct (Nat.ltb 0 k); lia|congruence]. Qed.
Lemma len_w m k e s : ss m k e s -> List.length (s_writers s) = List.length L.
Proof. intros H. symmetry. eapply Forall2_length. exact (x_w _ _ _ _ H). Qed.
Lemma pend_pos s j : 0 <= pend s j <= 1. Proof. unfold pend. destruct (nth j (s_scaled s) None); lia. Qed.
Lemma descend s e m k : strict = true -> ss m k e s -> (forall j, 0 <= e j) -> forall i, (i < List.length L)%nat -> fr s i * 2 ^ Z.of_nat i <= fr s 0.
Proof.
  intros S1 H He. induction i as [|i IH]; intros Hi; [cbn; lia|]. specialize (IH ltac:(lia)). pose proof (x_p _ _ _ _ H S1 (S i) ltac:(lia) Hi) as P. replace (S i - 1)%nat with i in P by lia.
  pose proof (pend_pos s (S i)). specialize (He (S i)). rewrite Nat2Z.inj_succ, Z.pow_succ_r by lia. assert (0 < 2 ^ Z.of_nat i) by (apply Z.pow_pos_nonneg; lia). nia.
Qed.
Lemma F2_nth {A B} (R : A -> B -> Prop) l m : Forall2 R l m -> forall i a b, nth_error l i = Some a -> nth_error m i = Some b -> R a b.
Proof. induction 1; intros [|i] a b X Y; cbn in *; try discriminate; [congruence|eauto]. Qed.
Lemma F2_upd {A B} (R : A -> B -> Prop) l m : Forall2 R l m -> forall i a b, nth_error l i = Some a -> R a b -> Forall2 R l (upd m i b).
Proof. induction 1; intros [|i] a b X Y; try discriminate; [injection X as ->|]; cbn in *; (constructor; [auto|]); auto. apply (IHForall2 i a b X Y). Qed.
Lemma ne_upd {A} (l : list A) i j b : (i < List.length l)%nat -> nth_error (upd l i b) j = if Nat.eqb j i then Some b else nth_error l j.
Proof.
  revert i j. induction l as [|x l IH]; intros i j H; cbn in H; [lia|]. destruct i as [|i], j as [|j]; cbn; auto. apply (IH i j). lia.
Qed.
(** [e] after a frame at level [k] *)
Definition ea (e : nat -> Z) (k j : nat) : Z := e j - (if Nat.eqb j k then 2 else 0) + (if Nat.eqb j (S k) then 1 else 0).
Lemma fr_upd s i a j : (i < List.length (s_writers s))%nat -> fr (set_writers s (upd (s_writers s) i a)) j = if Nat.eqb j i then a_frames a else fr s j.
Proof. intros H. unfold fr. cbn [s_writers set_writers]. rewrite ne_upd by auto. destruct (Nat.eqb j i); reflexivity. Qed.
Lemma st_frame k data m e sc : m + 1 <= total ->
  hx (fun tw => (T m k e tw /\ s_scaled (fst tw) = sc) /\ ((k < List.length L)%nat -> strict = true -> fr (fst tw) k + 1 <= NN k)) (on_writer k (write_frame E data))
     (fun v tw => ((v = 0 /\ T m k e tw) \/ (v = zlen data /\ T m (S k) (ea e k) tw)) /\ s_scaled (fst tw) = sc)
     (Fl (m + 1)).
Proof.
  intros Hm [s w] [[(X & Y & Z) HS] HN]. cbn [fst snd] in *. unfold on_writer. destruct (nth_error (s_writers s) k) as [a|] eqn:Na.
  2:{ apply T_fail with (m := m) (k := k) (e := e); [split; auto|lia]. }
  assert (Hk : (k < List.length (s_writers s))%nat) by (apply nth_error_Some; congruence). rewrite (len_w _ _ _ _ Y) in Hk. specialize (HN Hk).
  destruct (nth_error L k) as [g|] eqn:Ng; [|apply nth_error_None in Ng; lia]. pose proof (HL _ _ Ng) as [F1 F2 F3 F4 F5 F6 F7].
  assert (Ha : gg g a) by (eapply F2_nth; [exact (x_w _ _ _ _ Y)|eauto|eauto]).
  assert (Hfr : fr s k = a_frames a) by (unfold fr; rewrite Na; reflexivity).
  assert (Hle : a_frames a <= m). { pose proof (x_n _ _ _ _ Y k) as P. rewrite Nat.ltb_irrefl in P. lia. }
  assert (HNk : a_frames a + 1 <= NN k). { destruct strict eqn:S1; [rewrite <- Hfr; auto|]. pose proof (N_coarse eq_refl k). lia. }
  assert (Ht : strict = true -> gt g a) by (intros S1; eapply F2_nth; [exact (x_t _ _ _ _ Y S1)|eauto|eauto]).
  pose proof (write_frame_spec E v3 bpp (g_0 g) (g_m g) (g_y g) (g_x g) (g_c g) F1 F2 F3 F4 F5 okf (NN k) F6 F7 data (a_frames a) (strict = true) HNk ltac:(lia) (a, w)) as WF.
  specialize (WF (conj (conj X Ha) (conj eq_refl Ht))). destruct (write_frame E data (a, w)) as [[a' w'] r].
  assert (Hlen : (k < List.length (s_writers s))%nat) by (rewrite (len_w _ _ _ _ Y); auto).
  assert (C : Iwf okf w' -> gg g a' -> a_frames a <= a_frames a' <= a_frames a + 1 -> Fl (m + 1) (set_writers s (upd (s_writers s) k a'), w')).
  { intros Iw' Hb Hn S0. split; auto. split; auto. destruct Y as [Y1 Y2 Y3 Y4 Y5 Y6 Y7]. split; cbn [s_writers set_writers s_foff s_fbuf s_v3 s_msinks fst snd]; auto; try congruence.
    - eapply F2_upd; eauto.
    - intros i. change (Nat.ltb i 0) with false. rewrite fr_upd by auto. specialize (Y5 i). destruct (Nat.eqb i k); [lia|]. destruct (Nat.ltb i k); lia. }
  destruct r as [v|e1| |]; try (destruct WF as [[W1 W2] W3]; apply C; auto).
  destruct WF as ([W1 W2] & W3 & W4). cbn [fst snd] in *. split; [|exact HS]. destruct W3 as [[-> W3]|[-> W3]].
  - left. split; auto. split; auto. split; auto. destruct Y as [Y1 Y2 Y3 Y4 Y5 Y6 Y7].
    assert (FF : forall i, fr (set_writers s (upd (s_writers s) k a')) i = fr s i). { intros i. rewrite fr_upd by auto. destruct (Nat.eqb_spec i k) as [->|]; congruence. }
    split; cbn [s_writers set_writers s_foff s_fbuf s_v3 fst snd]; auto.
    + eapply F2_upd; [exact Y1|exact Ng|exact W2].
    + intros i. rewrite FF. auto.
    + intros S1. eapply F2_upd; [apply Y6; auto|eauto|apply W4; auto].
    + intros S1 j J1 J2. rewrite !FF. apply (Y7 S1 j J1 J2).
  - right. split; auto. split; auto. split; auto. destruct Y as [Y1 Y2 Y3 Y4 Y5 Y6 Y7]. split; cbn [s_writers set_writers s_foff s_fbuf s_v3 fst snd]; auto.
    + eapply F2_upd; [exact Y1|exact Ng|exact W2].
    + intros i. rewrite fr_upd by auto. specialize (Y5 i). destruct (Nat.eqb_spec i k) as [->|Hik]; [rewrite (proj2 (Nat.ltb_lt k (S k))) by lia; lia|].
      destruct (Nat.ltb_spec i k); destruct (Nat.ltb_spec i (S k)); lia.
    + intros S1. eapply F2_upd; [apply Y6; auto|eauto|apply W4; auto].
    + intros S1 j J1 J2. rewrite !fr_upd by auto. specialize (Y7 S1 j J1 J2). change (pend (set_writers s (upd (s_writers s) k a')) j) with (pend s j). unfold ea.
      destruct (Nat.eqb_spec j k) as [->|].
      * rewrite (proj2 (Nat.eqb_neq k (S k))) by lia. rewrite (proj2 (Nat.eqb_neq (k - 1) k)) by lia. lia.
      * destruct (Nat.eqb_spec j (S k)) as [->|].
        -- replace (S k - 1)%nat with k in * by lia. rewrite Nat.eqb_refl. lia.
        -- rewrite (proj2 (Nat.eqb_neq (j - 1) k)) by lia. lia.
Qed.
Lemma hx_getT {B} (P : TW -> Prop) (f : stream -> M TW B) Q R : (forall s, hx (fun tw => P tw /\ fst tw = s) (f s) Q R) -> hx P (s <- getT ;; f s) Q R.
Proof. intros H [a w] X. unfold bind, getT. cbn. apply (H a (a, w)). auto. Qed.
Lemma hx_modT (P : TW -> Prop) (Q : unit -> TW -> Prop) R f : (forall a w, P (a, w) -> Q tt (f a, w)) -> hx P (modT f) Q R.
Proof. intros H [a w] X. cbn. auto. Qed.
Lemma fr_scaled s a b i : fr (set_scaled s a b) i = fr s i. Proof. reflexivity. Qed.
Lemma st_multi m bp : m + 1 <= total -> forall fuel k data nb wd ht, (1 <= k)%nat -> hx (T m k (ek k)) (multiscale_loop E bp fuel k data nb wd ht) (fun _ => T (m + 1) 0 e0) (Fl (m + 1)).
Proof.
  intros Hm. induction fuel as [|f IH]; intros k data nb wd ht Hk; cbn [multiscale_loop].
  { apply hx_ret. intros tw H. eapply T_mono; [exact H|destruct (Nat.ltb 0 k); lia|]. intros _ j _. unfold e0, ek. destruct (Nat.eqb j k); lia. }
  apply hx_getT. intros s. eapply hx_bind with (Q := fun _ tw => T m k (ek k) tw /\ fst tw = s).
  { apply hx_lift; [auto|]. intros tw [H _]. eapply T_fail; [exact H|lia]. }
  intros [[[px nb'] w'] h']. destruct (nth k (s_scaled s) None) as [old|] eqn:No.
  - cbv zeta. set (bytes := slice _ 0 nb'). eapply hx_bind with (Q := fun v tw => ((v = 0 /\ T m k (ek k) tw) \/ (v = zlen bytes /\ T m (S k) (ea (ek k) k) tw)) /\ s_scaled (fst tw) = s_scaled s).
    { eapply hx_pre; [apply st_frame; auto|]. intros [s' w] [H Hs]. cbn [fst] in Hs. subst s'. split; [split; [exact H|reflexivity]|]. intros Hlen S1. cbn [fst].
      destruct H as (_ & H & _). cbn [fst] in H. pose proof (x_p _ _ _ _ H S1 k Hk Hlen) as P. unfold pend in P. rewrite No in P. unfold ek in P at 1. rewrite Nat.eqb_refl in P.
      pose proof (descend s (ek k) m k S1 H ltac:(intros j; unfold ek; destruct (Nat.eqb j k); lia) (k - 1)%nat ltac:(lia)) as D.
      pose proof (x_n _ _ _ _ H 0) as N0. assert (fr s 0 <= total) by (destruct (Nat.ltb 0 k); lia). pose proof (N_fine S1 k) as NF.
      assert (fr s k + 1 <= total / 2 ^ Z.of_nat k); [|lia]. apply Z.div_le_lower_bound; [apply Z.pow_pos_nonneg; lia|].
      replace (Z.of_nat k) with (Z.succ (Z.of_nat (k - 1))) by lia. rewrite Z.pow_succ_r by lia. assert (0 < 2 ^ Z.of_nat (k - 1)) by (apply Z.pow_pos_nonneg; lia). nia. }
    intros v. eapply hx_bind with (Q := fun _ tw => T m (S k) (ea (ek k) k) tw /\ s_scaled (fst tw) = s_scaled s).
    { apply hx_expect.
      - intros tw [[[-> H]|[-> H]] HS] Hv; [discriminate|split; auto].
      - intros tw [[[_ H]|[_ H]] HS]; eapply T_fail; try exact H; lia. }
    intros _. eapply hx_bind with (Q := fun _ => T m (S k) (ek (S k))).
    { apply hx_modT. intros s1 w [(X & Y & Z) HS]. cbn [fst snd] in *. split; [exact X|]. split; [|exact Z]. destruct Y as [Y1 Y2 Y3 Y4 Y5 Y6 Y7]. split; auto.
      intros S1 j J1 J2. specialize (Y7 S1 j J1 J2). cbn [fst]. rewrite !fr_scaled. unfold pend in *. cbn [s_scaled set_scaled fst].
      unfold ea, ek in *. destruct (Nat.eqb_spec j k) as [Hjk|Hjk]; [subst j|].
      - rewrite (proj2 (Nat.eqb_neq k (S k))) in * by lia. assert (Hn : nth k (upd (s_scaled s1) k None) None = None). { destruct (Nat.ltb_spec k (List.length (s_scaled s1))); [rewrite nth_upd by auto; rewrite Nat.eqb_refl; reflexivity|apply nth_overflow; rewrite upd_length; auto]. }
        rewrite Hn. rewrite HS, No in Y7. lia.
      - assert (Hn : nth j (upd (s_scaled s1) k None) None = nth j (s_scaled s1) None). { destruct (Nat.ltb_spec k (List.length (s_scaled s1))); [rewrite nth_upd by auto; rewrite (proj2 (Nat.eqb_neq k j)) by auto; reflexivity|]. unfold upd. rewrite firstn_all2, skipn_all2, app_nil_r by auto. reflexivity. }
        rewrite Hn. lia. }
    intros _. apply IH. lia.
  - apply hx_modT. intros s1 w [(X & Y & Z) Hs]. cbn [fst snd] in *. subst s1. split; [exact X|]. split; [|exact Z]. cbn [fst].
    assert (Q : ss (m + 1) 0 (ek k) s) by (eapply ss_mono; [exact Y|destruct (Nat.ltb 0 k); lia|intros; lia]). destruct Q as [Y1 Y2 Y3 Y4 Y5 Y6 Y7]. split; auto.
    intros S1 j J1 J2. specialize (Y7 S1 j J1 J2). cbn [fst]. rewrite !fr_scaled. unfold pend in *. cbn [s_scaled set_scaled fst]. unfold e0, ek in *.
    destruct (Nat.eqb_spec j k) as [Hjk|Hjk]; [subst j|].
    + rewrite No in Y7. destruct (nth k (upd (s_scaled s) k (Some px)) None); lia.
    + assert (Hn : nth j (upd (s_scaled s) k (Some px)) None = nth j (s_scaled s) None). { destruct (Nat.ltb_spec k (List.length (s_scaled s))); [rewrite nth_upd by auto; rewrite (proj2 (Nat.eqb_neq k j)) by auto; reflexivity|]. unfold upd. rewrite firstn_all2, skipn_all2, app_nil_r by auto. reflexivity. }
      rewrite Hn. lia.
Qed.
Lemma T_up m m' tw : T m 0 e0 tw -> m <= m' -> T m' 0 e0 tw.
Proof. intros H Hm. eapply T_mono; [exact H|cbn; lia|intros; lia]. Qed.
Lemma Fl_up m m' tw : Fl m tw -> m <= m' -> Fl m' tw.
Proof. intros H Hm S0. eapply T_up; [apply H; auto|auto]. Qed.
Lemma st_multiscale m data nb : m + 1 <= total -> hx (T m 1 (ek 1)) (write_multiscale E data nb) (fun _ => T (m + 1) 0 e0) (Fl (m + 1)).
Proof.
  intros Hm. unfold write_multiscale. apply hx_getT. intros s.
  assert (Q : forall tw, T m 1 (ek 1) tw -> T (m + 1) 0 e0 tw). { intros tw H. eapply T_mono; [exact H|cbn; lia|]. intros _ j _. unfold e0, ek. destruct (Nat.eqb j 1); lia. }
  destruct (s_multi s); [|apply hx_ret; intros tw [H _]; auto]. destruct (dt_count <=? s_dtype s).
  - intros tw [H _]. cbn. intros S0. auto.
  - eapply hx_bind with (Q := fun _ => T m 1 (ek 1)).
    + apply hx_lift; [intros tw v _ [H _]; auto|intros tw [H _] S0; auto].
    + intros b. apply st_multi; auto.
Qed.
Lemma st_append_loop data : forall K fuel pos m, 0 <= pos -> zlen data = pos + Z.of_nat K * fb -> m + Z.of_nat K <= total ->
  hx (T m 0 e0) (append_loop E fuel data pos pos) (fun _ => T (m + Z.of_nat K) 0 e0) (Fl (m + Z.of_nat K)).
Proof.
  induction K as [|K IH]; intros fuel pos m Hp Hz Hm; (destruct fuel as [|fuel]; cbn [append_loop]; [intros tw H; cbn [hangM]; intros S0; apply (T_up m); auto; lia|]).
  - rewrite (proj2 (Z.ltb_ge pos (zlen data))) by lia. apply hx_ret. intros tw H. apply (T_up m); auto. lia.
  - rewrite (proj2 (Z.ltb_lt pos (zlen data))) by nia. apply hx_getT. intros s tw [H Hs]. pose proof H as H'. destruct H' as (_ & H' & _). rewrite Hs in H'. pose proof (x_off _ _ _ _ H') as Ho. pose proof (x_buf _ _ _ _ H') as Hb. cbv zeta. rewrite Ho, Hb.
    change (0 <? 0) with false. cbv iota. rewrite (proj2 (Z.ltb_ge (zlen data - pos) fb)) by nia. rewrite (proj2 (Z.ltb_ge (zlen data) (pos + fb))) by nia. clear Hs H' s Ho Hb. revert tw H.
    assert (Hsl : zlen (slice data pos fb) = fb) by (apply slice_length; nia).
    eapply hx_bind with (Q := fun v tw => (v = 0 /\ T m 0 e0 tw) \/ (v = fb /\ T m 1 (ek 1) tw)).
    + intros tw H. pose proof (st_frame 0 (slice data pos fb) m e0 (s_scaled (fst tw)) ltac:(lia) tw) as F.
      assert (P : (T m 0 e0 tw /\ s_scaled (fst tw) = s_scaled (fst tw)) /\ ((0 < List.length L)%nat -> strict = true -> fr (fst tw) 0 + 1 <= NN 0)).
      { split; [auto|]. intros _ S1. destruct H as (_ & H & _). pose proof (x_n _ _ _ _ H 0) as N0. change (Nat.ltb 0 0) with false in N0. cbv iota in N0. pose proof (N_fine S1 0) as NF. change (2 ^ Z.of_nat 0) with 1 in NF. rewrite Z.div_1_r in NF. lia. }
      specialize (F P). destruct (on_writer 0 _ tw) as [tw' [v|e| |]]; try (apply (Fl_up (m + 1)); [exact F|lia]).
      destruct F as [[[-> F]|[-> F]] _]; [auto|right]. rewrite Hsl. split; auto. destruct F as (F1 & F2 & F3). split; auto. split; auto. destruct F2 as [Y1 Y2 Y3 Y4 Y5 Y6 Y7]. split; auto.
      intros S1 j J1 J2. specialize (Y7 S1 j J1 J2). unfold ea, e0, ek in *. rewrite (proj2 (Nat.eqb_neq j 0)) in Y7 by lia. lia.
    + intros v. destruct (Z.eqb_spec v 0) as [->|Hv].
      * apply hx_ret. intros tw [[_ H]|[H _]]; [|lia]. apply (T_up m); auto. lia.
      * intros tw [[? _]|[-> H]]; [contradiction|]. revert tw H. eapply hx_bind with (Q := fun _ => T (m + 1) 0 e0).
        -- eapply hx_weak; [apply (st_multiscale m); lia|intros tw H; exact H|intros u tw H; exact H|]. intros tw H. apply (Fl_up (m + 1)); [exact H|lia].
        -- intros _. replace (m + Z.of_nat (S K)) with (m + 1 + Z.of_nat K) by lia. apply IH; lia.
Qed.
Lemma st_api_append data K m : zlen data = Z.of_nat K * fb -> m + Z.of_nat K <= total -> forall tw, T m 0 e0 tw ->
  match api_append E (Some data) true tw with
  | (tw', Ok r) => strict = false \/ fst r = st_success -> T (m + Z.of_nat K) 0 e0 tw'
  | (tw', _) => Fl (m + Z.of_nat K) tw'
  end.
Proof.
  intros Hz Hm tw H.
  assert (A : hx (T m 0 e0) (append E data) (fun _ => T (m + Z.of_nat K) 0 e0) (Fl (m + Z.of_nat K))).
  { unfold append. eapply hx_bind with (Q := fun _ => T m 0 e0). { intros t X. exact X. } intros w0. eapply hx_bind with (Q := fun _ => T m 0 e0); [apply hx_expect; auto; intros t X S0; apply (T_up m); auto; lia|]. intros _. apply st_append_loop; auto; lia. }
  specialize (A tw H). unfold api_append, catchM, bind. destruct (append E data tw) as [tw' [n|e| |]]; cbn; auto. intros [S0|X]; [apply A; auto|]. discriminate.
Qed.
Definition all_fine (rs : list (Z * option Z)) : Prop := Forall (fun r => fst r = st_success) rs.
Lemma st_appends : forall calls Ks m, Forall2 (fun d K => zlen d = Z.of_nat K * fb) calls Ks -> m + fold_right (fun K z => Z.of_nat K + z) 0 Ks <= total -> forall tw, T m 0 e0 tw ->
  match api_appends E calls tw with
  | (tw', Ok rs) => strict = false \/ all_fine rs -> T (m + fold_right (fun K z => Z.of_nat K + z) 0 Ks) 0 e0 tw'
  | (tw', _) => Fl (m + fold_right (fun K z => Z.of_nat K + z) 0 Ks) tw'
  end.
Proof.
  induction calls as [|d l IH]; intros Ks m HK Hm tw H; inversion HK as [|? K ? Ks' HK1 HK2]; subst; cbn [fold_right] in *; cbn [api_appends].
  - cbn. intros _. apply (T_up m); auto. lia.
  - assert (P : 0 <= fold_right (fun K z => Z.of_nat K + z) 0 Ks') by (clear; induction Ks'; cbn [fold_right]; lia).
    pose proof (st_api_append d K m HK1 ltac:(lia) tw H) as A. unfold bind at 1. destruct (api_append E (Some d) true tw) as [tw1 [r|e| |]]; try (apply (Fl_up (m + Z.of_nat K)); [exact A|lia]).
    assert (B : strict = false \/ fst r = st_success -> match api_appends E l tw1 with (tw', Ok rs) => strict = false \/ all_fine rs -> T (m + (Z.of_nat K + fold_right (fun K z => Z.of_nat K + z) 0 Ks')) 0 e0 tw' | (tw', _) => Fl (m + (Z.of_nat K + fold_right (fun K z => Z.of_nat K + z) 0 Ks')) tw' end).
    { intros C. rewrite Z.add_assoc. apply (IH Ks' (m + Z.of_nat K)); auto. lia. }
    unfold bind. destruct (api_appends E l tw1) as [tw2 [rs|e| |]]; cbn.
    + intros C. apply B; (destruct C as [C|C]; [left; auto|right; inversion C; auto]).
    + intros S0. apply B; auto.
    + intros S0. apply B; auto.
    + intros S0. apply B; auto.
Qed.
Definition Fi (i : nat) (tw : TW) : Prop := Iwf okf (snd tw) /\ List.length (s_writers (fst tw)) = List.length L /\
  forall j g a, (i <= j)%nat -> nth_error L j = Some g -> nth_error (s_writers (fst tw)) j = Some a -> gg g a /\ (a_toflush a = 0 \/ a_append a * per v3 (g_0 g) (g_m g) < NN j).
Lemma st_arrays : forall n i, hx (Fi i) (all_ok (fun i => on_writer i (finalize_array E)) (seq i n)) (fun _ tw => Iwf okf (snd tw)) (fun tw => Iwf okf (snd tw)).
Proof.
  induction n as [|n IH]; intros i; cbn [seq all_ok]; [apply hx_ret; intros tw H; apply H|].
  eapply hx_bind with (Q := fun _ => Fi (S i)).
  - intros [s w] (H1 & H2 & H3). cbn [fst snd] in *. unfold on_writer. destruct (nth_error (s_writers s) i) as [a|] eqn:Na; [|exact H1].
    assert (Hi : (i < List.length (s_writers s))%nat) by (apply nth_error_Some; congruence). rewrite H2 in Hi.
    destruct (nth_error L i) as [g|] eqn:Ng; [|apply nth_error_None in Ng; lia]. destruct (H3 i g a ltac:(lia) Ng Na) as [Ga Gb]. pose proof (HL _ _ Ng) as [F1 F2 F3 F4 F5 F6 F7].
    pose proof (finalize_spec E v3 bpp (g_0 g) (g_m g) (g_y g) (g_x g) (g_c g) F1 F2 F3 F4 F5 okf (NN i) F6 F7 (a, w) (conj (conj H1 Ga) Gb)) as WF.
    destruct (finalize_array E (a, w)) as [[a' w'] [v|e| |]]; cbn [fst snd] in *; auto. split; [exact WF|]. cbn [fst snd s_writers set_writers]. split; [rewrite upd_length; auto|].
    intros j g' b Hj J1 J2. rewrite ne_upd in J2 by lia. rewrite (proj2 (Nat.eqb_neq j i)) in J2 by lia. apply (H3 j g' b); auto. lia.
  - intros ok. destruct ok; [apply IH|]. apply hx_ret. intros tw H. apply H.
Qed.
Lemma st_finalize m : m <= total -> hx (T m 0 e0) (finalize_stream E) (fun _ tw => Iwf okf (snd tw)) (fun tw => Iwf okf (snd tw)).
Proof.
  intros Hm. unfold finalize_stream.
  assert (Wm : forall s l, ss m 0 e0 s -> ss m 0 e0 (set_msinks s l)) by (intros s l [Y1 Y2 Y3 Y4 Y5 Y6 Y7]; split; auto).
  assert (K : forall A (p : M TW A), pres (Id okf (ss m 0 e0)) any p -> hx (T m 0 e0) p (fun _ => T m 0 e0) (fun tw => Iwf okf (snd tw))).
  { intros A p H. eapply hx_weak; [apply hx_pres; exact H|auto|intros v tw [X _]; exact X|intros tw X; apply X]. }
  eapply hx_bind; [apply K, d_group; auto|]. intros ok. destruct ok; [|apply hx_ret; intros tw H; apply H].
  apply hx_getT. intros s. eapply hx_bind with (Q := fun _ => T m 0 e0). { eapply hx_pre; [apply K; apply d_all_ok; intros; apply d_msink; auto|]. intros tw [H _]. exact H. }
  intros ok. destruct ok; [|apply hx_ret; intros tw H; apply H].
  eapply hx_bind with (Q := fun _ => T m 0 e0). { apply hx_modT. intros s1 w (X & Y & Z). split; auto. split; [apply Wm; exact Y|constructor]. }
  intros _. apply hx_getT. intros s2. eapply hx_bind with (Q := fun _ tw => Iwf okf (snd tw)).
  { eapply hx_pre; [apply st_arrays|]. intros tw [(X & Y & Z) _]. split; [exact X|]. split; [eapply len_w; exact Y|]. intros j g a _ Ng Na.
    assert (Ga : gg g a) by (eapply F2_nth; [exact (x_w _ _ _ _ Y)|eauto|eauto]). split; [exact Ga|]. destruct Ga as [G1 G2 G3 G4].
    assert (Hf : fr (fst tw) j = a_frames a) by (unfold fr; rewrite Na; reflexivity). pose proof (x_n _ _ _ _ Y) as N0.
    destruct (Z.eq_dec (a_toflush a) 0) as [|Hz]; [auto|]. right. destruct (Bool.bool_dec strict true) as [S1|S1]; [|apply Bool.not_true_is_false in S1].
    - assert (Gt : gt g a) by (eapply F2_nth; [exact (x_t _ _ _ _ Y S1)|eauto|eauto]). specialize (Gt Hz). pose proof (N_fine S1 j) as NF.
      assert (Hj : (j < List.length L)%nat) by (apply nth_error_Some; congruence).
      pose proof (descend (fst tw) e0 m 0 S1 Y ltac:(intros; unfold e0; lia) j Hj) as D. specialize (N0 0%nat). change (Nat.ltb 0 0) with false in N0. cbv iota in N0. rewrite Hf in D.
      assert (a_frames a <= total / 2 ^ Z.of_nat j); [|lia]. apply Z.div_le_lower_bound; [apply Z.pow_pos_nonneg; lia|]. lia.
    - pose proof (N_coarse S1 j). specialize (N0 j). rewrite Hf in N0. change (Nat.ltb j 0) with false in N0. cbv iota in N0. lia. }
  intros ok. destruct ok; [|apply hx_ret; auto]. eapply hx_bind with (Q := fun _ tw => Iwf okf (snd tw)); [apply hx_modT; auto|intros _; apply hx_ret; auto].
Qed.
Lemma st_opening s w bk : Id okf (ss 0 0 e0) (s, w) -> s_bucket s = bk -> s_root s = root -> (bk = None -> strip_file root = root) ->
  Id okf (ss 0 0 e0) (fst (opening E (s, w))).
Proof.
  intros H Hb Hr HR.
  assert (Wm : forall s l, ss 0 0 e0 s -> ss 0 0 e0 (set_msinks s l)) by (intros s1 l [Y1 Y2 Y3 Y4 Y5 Y6 Y7]; split; auto).
  unfold opening. unfold bind at 1. pose proof (d_create_metadata E v3 okf (ss 0 0 e0) Wm (fun s H => x_v _ _ _ _ H) root Hdoc bk HR s w Hb Hr H) as C.
  destruct (create_metadata_sinks E (s, w)) as [tw [ok|e| |]]; cbn [fst] in *; try exact C. revert tw C.
  assert (P : pres (Id okf (ss 0 0 e0)) any (expectM ok "create_metadata_sinks_" ;;; ok <- write_base_metadata E ;; expectM ok "write_base_metadata_" ;;; ok <- write_group_metadata E ;; expectM ok "write_group_metadata_" ;;; ok <- write_external_metadata E ;; expectM ok "write_external_metadata_")).
  { bd; [st|]. bd; [apply d_base; auto|]. bd; [st|]. bd; [apply d_group; auto|]. bd; [st|]. bd; [apply d_external; auto|]. st. }
  intros tw C. apply (P tw C).
Qed.
Lemma fresh_writers ws : Forall2 (fun g a => make_writer v3 (g_c g) = Ok a) L ws -> Forall2 gg L ws /\ Forall2 gt L ws /\ Forall (fun a => a_frames a = 0) ws.
Proof.
  intros H. assert (G : forall l i, (forall j g, nth_error l j = Some g -> lev (i + j) g) -> forall ws, Forall2 (fun g a => make_writer v3 (g_c g) = Ok a) l ws -> Forall2 gg l ws /\ Forall2 gt l ws /\ Forall (fun a => a_frames a = 0) ws).
  { clear. induction l as [|g l IH]; intros i Hl ws H; inversion H as [|? a ? ws' H1 H2]; subst; [repeat constructor|].
    destruct (IH (S i)) with (ws := ws') as (A & B & C); [|exact H2|].
    - intros j g' Hj. replace (S i + j)%nat with (i + S j)%nat by lia. apply Hl. exact Hj.
    - destruct (Hl 0%nat g eq_refl) as [F1 F2 F3 F4 F5 F6 F7]. destruct (fresh_grown v3 (g_0 g) (g_m g) (g_y g) (g_x g) (g_c g) F2 okf _ F6 F7 a H1) as (X & Y & Z). repeat split; constructor; auto. }
  apply (G L 0%nat); auto.
Qed.
Lemma fr_zero s : Forall (fun a => a_frames a = 0) (s_writers s) -> forall i, fr s i = 0.
Proof. intros H i. unfold fr. destruct (nth_error (s_writers s) i) as [a|] eqn:N; [|reflexivity]. rewrite Forall_forall in H. apply H. eapply nth_error_In; eauto. Qed.
(** creating the stream: [st] puts it at [root] *)
Lemma st_new st :
  place st = (fst (place st), root) -> (fst (place st) = None -> strip_file root = root) -> v3 = (st_version st =? 3) ->
  (forall s n, commit st = Ok s -> bytes_of_frame (s_dims s) (s_dtype s) = Ok n -> n = fb) ->
  (forall w s ws, validate_settings E w (Some st) = Ok true -> commit st = Ok s -> create_writers s = Ok ws -> Forall2 (fun g a => make_writer v3 (g_c g) = Ok a) L ws) ->
  pres (Iwf okf) (fun s => ss 0 0 e0 s /\ okms (s_msinks s)) (new_stream E (Some st)).
Proof.
  intros HP HR HV Hn Hw w0 Hw0. unfold new_stream. destruct (validate_settings E w0 (Some st)) as [[]|e| |] eqn:V; try (split; [auto|discriminate]). specialize (Hw w0).
  assert (N : pres (Iwf okf) (fun s => ss 0 0 e0 s /\ okms (s_msinks s)) (s <- liftM (commit st) ;; n <- liftM (bytes_of_frame (s_dims s) (s_dtype s)) ;; let s := set_fbuf s (zrep 0 n) 0 in ok <- create_store E s ;; expectM ok "create_store_" ;;; ws <- liftM (create_writers s) ;;
    let s := set_writers s ws in let s := if s_multi s then set_scaled s (map (fun _ => None) ws) 0 else s in fun w => let '((s', w'), r) := opening E (s, w) in match r with Throw m => (fst (drop_msinks s' w'), Throw m) | _ => (w', let? _ := r in Ok s') end)).
  2:{ exact (N w0 Hw0). }
  eapply pres_bind with (P := fun s => commit st = Ok s); [apply pres_lift; auto|]. intros s Hs. destruct (commit_place _ _ Hs) as (S1 & S2 & S3 & S4). rewrite HP in S1.
  eapply pres_bind with (P := fun n => n = fb); [apply pres_lift; intros n Hn'; eapply Hn; eauto|]. intros n ->. cbv zeta.
  bd; [apply p_create_store; [intros; exact I|intros; split; exact I]|]. bd; [st|].
  eapply pres_bind with (P := fun ws => create_writers s = Ok ws); [apply pres_lift; auto|]. intros ws Hws. specialize (Hw s ws V Hs Hws). destruct (fresh_writers ws Hw) as (Q1 & Q2 & Q3).
  intros w Iw'. match goal with |- context [opening E (?s', w)] => set (s1 := s') end.
  assert (HS : Id okf (ss 0 0 e0) (s1, w) /\ s_bucket s1 = fst (place st) /\ s_root s1 = root).
  { assert (SB : s_bucket s = fst (place st)) by congruence. assert (SR : s_root s = root) by congruence.
    assert (S5 : s_scaled s = []). { clear - Hs. unfold commit in Hs. destruct (make_dimensions _); try discriminate. injection Hs as <-. reflexivity. }
    assert (B : forall x, s_writers x = ws -> s_foff x = 0 -> s_fbuf x = zrep 0 fb -> s_v3 x = s_v3 s -> s_msinks x = [] -> (forall j, nth j (s_scaled x) None = None) -> Id okf (ss 0 0 e0) (x, w)).
    { intros x X1 X2 X3 X4 X5 X6. split; [exact Iw'|]. cbn [fst snd]. split; [|rewrite X5; constructor].
      assert (Q : forall i, fr x i = 0) by (apply fr_zero; rewrite X1; exact Q3). split; rewrite ?X1, ?X2, ?X3, ?X4; auto.
      - unfold zrep, zlen. rewrite repeat_length. rewrite Z2Nat.id by lia. reflexivity.
      - rewrite S2. auto.
      - intros i. rewrite Q. cbn. lia.
      - intros _ j _ _. rewrite !Q. unfold pend. rewrite X6. unfold e0. lia. }
    unfold s1. cbn [s_multi set_writers set_fbuf]. destruct (s_multi s); (split; [apply B; try reflexivity; try exact S4|auto]).
    - cbn [s_scaled set_scaled]. clear. intros j. revert j. induction ws; intros [|j]; cbn; auto.
    - intros j. cbn [s_scaled set_writers set_fbuf]. rewrite S5. destruct j; reflexivity. }
  destruct HS as (HS & HB & HRt). clearbody s1. pose proof (st_opening s1 w _ HS HB HRt HR) as O.
  destruct (opening E (s1, w)) as [[s' w'] r]. cbn [fst snd] in O. destruct O as (O1 & O2 & O3). destruct r; (split; [try exact O1|intros x X; try discriminate; try (injection X as <-; split; [exact O2|exact O3])]).
  apply d_drop; auto.
Qed.
(** the life of a stream *)
Lemma st_session st calls Ks :
  place st = (fst (place st), root) -> (fst (place st) = None -> strip_file root = root) -> v3 = (st_version st =? 3) ->
  (forall s n, commit st = Ok s -> bytes_of_frame (s_dims s) (s_dtype s) = Ok n -> n = fb) ->
  (forall w s ws, validate_settings E w (Some st) = Ok true -> commit st = Ok s -> create_writers s = Ok ws -> Forall2 (fun g a => make_writer v3 (g_c g) = Ok a) L ws) ->
  Forall2 (fun d K => zlen d = Z.of_nat K * fb) calls Ks -> fold_right (fun K z => Z.of_nat K + z) 0 Ks <= total ->
  forall w, Iwf okf w -> (strict = false \/ match snd (session E st calls w) with Ok (Some (rs, _)) => all_fine rs | Ok None => True | _ => False end) ->
  Iwf okf (fst (session E st calls w)).
Proof.
  intros HP HR HV Hn Hw HK Ht w HI HS. unfold session in *. unfold bind at 1. unfold bind at 1 in HS. unfold api_create, catchM in *. unfold bind at 1. unfold bind at 1 in HS.
  destruct (st_new st HP HR HV Hn Hw w HI) as [N1 N2]. destruct (new_stream E (Some st) w) as [w1 [s|e| |]]; cbn [fst snd ret] in *; auto. destruct (N2 s eq_refl) as [M1 M2].
  pose proof (st_appends calls Ks 0 HK ltac:(lia) (s, w1) (conj N1 (conj M1 M2))) as A. unfold bind in *. destruct (api_appends E calls (s, w1)) as [tw2 [rs|e| |]].
  - assert (B : strict = false \/ all_fine rs -> Iwf okf (snd (fst (api_destroy E tw2)))).
    { intros C. specialize (A C). pose proof (st_finalize (0 + fold_right (fun K z => Z.of_nat K + z) 0 Ks) ltac:(lia) tw2 A) as D. unfold api_destroy. destruct (finalize_stream E tw2) as [tw3 [b|e| |]]; exact D. }
    destruct (api_destroy E tw2) as [[s3 w3] [b|e| |]]; cbn [fst snd ret] in *; apply B; tauto.
  - cbn [fst snd] in *. destruct tw2 as [s2 w2]. cbn [fst snd] in *. destruct HS as [HS|[]]. apply (A HS).
  - cbn [fst snd] in *. destruct tw2 as [s2 w2]. cbn [fst snd] in *. destruct HS as [HS|[]]. apply (A HS).
  - cbn [fst snd] in *. destruct tw2 as [s2 w2]. cbn [fst snd] in *. destruct HS as [HS|[]]. apply (A HS).
Qed.
End St.
