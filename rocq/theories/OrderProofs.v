(** The array document of a level is uploaded after everything else of that level, whatever the environment does. *)
Require Import ZArith List Bool String Ascii Lia.
Require Import Verif.Base Verif.Spec Verif.Dim Verif.Limits Verif.Radix Verif.PathProofs Verif.Json Verif.World Verif.Writer Verif.LayoutProofs Verif.FrameProofs Verif.GridProofs Verif.OnceSpec Verif.OnceProofs.
Require Verif.OpenProofs Verif.OnceStream.
Import ListNotations.
Open Scope string_scope. Open Scope list_scope. Open Scope Z_scope.

(** *** the sink of the array document keeps its key *)
Section Doc.
Variables (E : env) (b km : string) (v3 : bool) (c0 : config).
Hypothesis Hb : c_bucket c0 = Some b.
Hypothesis Hk : km = join_path (c_root c0) (meta_comps v3 (c_level c0)).
Definition doc_sink (o : option sink) : Prop := match o with None => True | Some (SFile _) => False | Some (SS3 s) => s_bucket s = b /\ s_key s = km end.
Definition md (a : writer) : Prop := a_cfg a = c0 /\ a_v3 a = v3 /\ doc_sink (a_meta a).
Definition Md (aw : AW) : Prop := md (fst aw).
Notation pm := (pres Md).
Lemma m_onWd {A} (m : M world A) : pm any (onWd m).
Proof. intros [a w] X. unfold onWd. cbn [fst snd]. destruct (m w) as [w' r]. split; [exact X|intros; exact I]. Qed.
Lemma m_getA : pm md getA.
Proof. intros [a w] X. split; [exact X|]. intros v H. injection H as <-. exact X. Qed.
Lemma m_modA f : (forall a, md a -> md (f a)) -> pm any (modA f).
Proof. intros H [a w] X. split; [apply H; exact X|intros; exact I]. Qed.
Lemma m_on_sink {A} i (m : M KW A) : pm any (on_sink i m).
Proof. intros [a w] X. unfold on_sink. destruct (nth i (a_sinks a) None); [|split; [exact X|discriminate]]. destruct (m _) as [[s' w'] r]. split; [exact X|intros; exact I]. Qed.
Lemma m_on_slot {A} i (m : M (option sink * world) A) : pm any (on_slot i m).
Proof. intros [a w] X. unfold on_slot. destruct (m _) as [[s' w'] r]. split; [exact X|intros; exact I]. Qed.
Lemma m_on_meta off d : pm any (on_meta (sink_write E off d)).
Proof.
  intros [a w] X. unfold on_meta. unfold Md, md in X. cbn [fst] in X. destruct (a_meta a) as [s|] eqn:Em; [|split; [unfold Md, md; cbn [fst]; rewrite Em; exact X|discriminate]].
  destruct X as (X1 & X2 & X3). destruct s as [f|s]; [destruct X3|]. unfold sink_write. cbn [fst]. unfold runS. cbn [snd fst].
  destruct (s_write E b km (cnt b km w) (s_bucket s) (s_key s) off d (s, w)) as [[A [B C]] _]; [split; [reflexivity|split; reflexivity]|]. destruct (s3_write E off d (s, w)) as [[s' w'] r]. cbn [fst snd] in *.
  split; [|intros; exact I]. split; [exact X1|]. split; [exact X2|]. cbn. destruct X3. split; congruence.
Qed.
Ltac st := first [apply pres_ret; exact I | apply pres_throw | apply pres_ub | apply pres_hang | apply pres_expect; exact I | apply pres_lift; intros; exact I | apply m_onWd | apply m_on_sink | apply m_on_slot | apply m_on_meta].
Ltac ag := eapply pres_bind; [apply m_getA|intros ? ?].
Ltac bd := eapply pres_bind with (P := any); [|intros ? _].
Ltac a1 := first [apply m_modA; intros ? X; exact X | st].
Lemma m_compress : pm any (compress_buffers E).
Proof. unfold compress_buffers. ag. destruct (c_comp (a_cfg a)) as [pr|]; [|st]. bd; [st|]. apply pres_miter. intros i _. ag. destruct (e_compress E pr a0 (nth i (a_bufs a1) [])); [bd; a1|a1]. Qed.
Lemma m_make_data : pm any (make_data_sinks E).
Proof. unfold make_data_sinks. ag. bd; [st|]. destruct a0 as [l|]; [bd; [a1|st]|st]. Qed.
Lemma m_make_meta : pm any (make_metadata_sink E).
Proof.
  unfold make_metadata_sink. ag. destruct (a_meta a) as [s|] eqn:Em; [st|]. destruct H as (H1 & H2 & _). rewrite H1, Hb.
  assert (R : metadata_path a = km) by (rewrite metadata_path_join, H1, H2; auto). rewrite R.
  eapply pres_bind with (P := doc_sink).
  - intros [a' w] X. assert (P : pres (fun _ : world => True) doc_sink (make_sink_s3 E b km)).
    { unfold make_sink_s3. assert (S0 : forall (B : Type) (m : M world B), pres (fun _ => True) any m) by (intros B m w' _; split; [exact I|intros; exact I]).
      bd; [apply S0|]. bd; [apply S0|]. eapply pres_bind with (P := any); [apply S0|intros ok _]. destruct ok; [|apply pres_ret; exact I].
      eapply pres_bind with (P := fun s => s_bucket s = b /\ s_key s = km).
      - unfold s3_sink. bd; [apply S0|]. bd; [apply S0|]. apply pres_ret. auto.
      - intros s Hs. apply pres_ret. exact Hs. }
    unfold onWd. cbn [fst snd]. destruct (P w I) as [_ P2]. destruct (make_sink_s3 E b km w) as [w' r]. split; [exact X|]. cbn [snd] in *. exact P2.
  - intros [s|] Hs; [|st]. bd; [|st]. apply m_modA. intros a' (X1 & X2 & X3). split; [exact X1|split; [exact X2|exact Hs]].
Qed.
Lemma m_write_meta : pm any (write_array_metadata E).
Proof.
  unfold write_array_metadata. eapply pres_bind with (P := any); [apply m_make_meta|intros ok _]. destruct ok; [|st]. ag. cbv zeta. destruct (a_v3 a).
  - bd; [st|]. destruct (dtype_v3 _); st.
  - destruct (dtype_v2 _); [|st]. bd; st.
Qed.
Lemma m_v2_job i : pm any (v2_job E i).
Proof. unfold v2_job. ag. bd; [|st]. apply pres_catch; [|intros; st]. bd; [st|]. bd; st. Qed.
Lemma m_flush_v2 : pm any (flush_impl_v2 E).
Proof. unfold flush_impl_v2. ag. bd; [st|]. bd; [apply m_make_data|]. destruct a1; [|st]. ag. bd; [st|]. bd; [|st]. apply pres_miter. intros; apply m_v2_job. Qed.
Lemma m_v3_chunk s x ci : pm any (v3_chunk E s x ci).
Proof.
  unfold v3_chunk. ag. cbv zeta. eapply pres_bind with (P := any); [|intros r _].
  - apply pres_catch; [|intros; st]. bd; st.
  - destruct r as [[] [m|]]; [st| |st|st]. apply pres_catch; [|intros; st]. repeat (bd; [a1|]). st.
Qed.
Lemma m_v3_chunks s : forall cs x, pm any (v3_chunks E s cs x).
Proof. induction cs as [|ch cs IH]; intros x; cbn [v3_chunks]; [st|]. eapply pres_bind with (P := any); [apply m_v3_chunk|intros r _]. destruct r as [[] [m|]]; try st. apply IH. Qed.
Lemma m_v3_table s : pm any (v3_table E s).
Proof. unfold v3_table. ag. apply pres_catch; [|intros; st]. bd; st. Qed.
Lemma m_v3_job tb cis s : pm any (v3_job E tb cis s).
Proof.
  unfold v3_job. eapply pres_bind with (P := any); [apply m_v3_chunks|intros r _]. eapply pres_bind with (P := any); [destruct r as [[] [m|]]; [st| |st|st]; destruct tb; [apply m_v3_table|st]|intros r2 _]. st.
Qed.
Lemma m_flush_v3 : pm any (flush_impl_v3 E).
Proof.
  unfold flush_impl_v3. ag. eapply pres_bind with (P := any); [destruct (a_sinks a); [apply m_make_data|st]|intros ok _]. destruct ok; [|st]. ag. cbv zeta. bd; [st|]. bd; [st|]. bd; [st|].
  bd; [destruct (a_final a0); st|]. bd; [apply pres_miter; intros; apply m_v3_job|]. bd; [|st]. match goal with |- pres _ _ (if ?b then _ else _) => destruct b end; a1.
Qed.
Lemma m_rollover : pm any (rollover E).
Proof. unfold rollover, close_sinks. bd; [|a1]. ag. bd; [|a1]. apply pres_miter. intros i _. bd; st. Qed.
Lemma m_flush : pm any (flush E).
Proof.
  unfold flush. ag. destruct (a_toflush a =? 0); [st|]. bd; [apply m_compress|]. bd; [unfold flush_impl; ag; destruct (a_v3 a1); [apply m_flush_v3|apply m_flush_v2]|]. bd; [st|]. ag. eapply pres_bind with (P := any); [st|intros roll _].
  bd; [destruct roll; [apply m_rollover|st]|]. ag. bd; [destruct (roll || a_final a5); [bd; [apply m_write_meta|st]|st]|]. ag.
  eapply pres_bind with (P := fun d => exists l, d = set_bufs a7 l); [apply pres_lift; intros v Hv; eapply mk_bufs; exact Hv|]. intros d (l & ->). apply m_modA. intros ? X. exact H2.
Qed.
Lemma m_write_frame data : pm any (write_frame E data).
Proof.
  unfold write_frame. ag. bd; [st|]. destruct (negb _); [st|]. bd.
  - destruct (a_bufs a); [|st]. eapply pres_bind with (P := fun d => exists l, d = set_bufs a l); [apply pres_lift; intros v Hv; eapply mk_bufs; exact Hv|]. intros d (l & ->). apply m_modA. intros ? X. exact H.
  - ag. bd; [st|]. destruct a3 as [bufs written]. bd; [a1|]. bd; [st|]. bd; [a1|]. ag. eapply pres_bind with (P := any); [st|intros sf _]. bd; [destruct sf; [apply m_flush|st]|]. st.
Qed.
End Doc.

Lemma hx_and {S A} (P : S -> Prop) (Q : A -> S -> Prop) R I (m : M S A) : hx P m Q R -> pres I any m -> hx (fun s => P s /\ I s) m (fun v s => Q v s /\ I s) (fun s => R s /\ I s).
Proof. intros H K s [X Y]. specialize (H s X). destruct (K s Y) as [Z _]. destruct (m s) as [s' [v|e| |]]; cbn in *; auto. Qed.

(** *** what is uploaded by one array *)
Section Two.
Variables (E : env) (b km kd : string) (v3 : bool).
(** nothing of [kd] has been uploaded since the first upload of [km] *)
Definition F (w : world) : Prop := exists t1 t2, w_trace w = t1 ++ t2 /\ uploads b km t1 = 0 /\ uploads b kd t2 = 0.
Lemma up_nonneg k l : 0 <= uploads b k l. Proof. apply zlen_nonneg. Qed.
Lemma F_none w : cnt b km w <= 0 -> F w.
Proof. intros H. exists (w_trace w), []. rewrite app_nil_r. repeat split. pose proof (up_nonneg km (w_trace w)). unfold cnt in H. lia. Qed.
(** [w'] comes after [w], without uploads of [k] *)
Definition later (k : string) (w w' : world) : Prop := exists evs, w_trace w' = w_trace w ++ evs /\ uploads b k evs = 0.
Lemma later_intro k w w' evs : w_trace w' = w_trace w ++ evs -> cnt b k w' <= cnt b k w -> later k w w'.
Proof. intros H K. exists evs. split; [exact H|]. unfold cnt in K. rewrite H, uploads_app in K. pose proof (up_nonneg k evs). lia. Qed.
Lemma later_trans k w w1 w2 : later k w w1 -> later k w1 w2 -> later k w w2.
Proof. intros (e1 & H1 & K1) (e2 & H2 & K2). exists (e1 ++ e2). rewrite H2, H1, app_assoc. split; [reflexivity|]. rewrite uploads_app. lia. Qed.
Lemma later_cnt k w w' : later k w w' -> cnt b k w' = cnt b k w.
Proof. intros (e & H & K). unfold cnt. rewrite H, uploads_app. lia. Qed.
Lemma F_later w w' : F w -> later kd w w' -> F w'.
Proof. intros (t1 & t2 & H1 & H2 & H3) (e & K1 & K2). exists t1, (t2 ++ e). rewrite K1, H1, <- app_assoc. split; [reflexivity|]. split; [exact H2|]. rewrite uploads_app. lia. Qed.

(** an array that has no sink for [kd], and never makes one *)
Section Other.
Variables (c0 : config).
Hypothesis sd : forall q cc, 0 <= q -> Forall (fun i => 0 <= i) cc -> List.length cc = (List.length (firstn (List.length (c_dims c0) - 2) (tl (c_dims c0))) + 1)%nat -> c_bucket c0 = Some b -> kd = join_path (c_root c0) (data_comps v3 (c_level c0) q ++ map dec cc) -> @None Z = Some q.
Hypothesis sm : c_bucket c0 = Some b -> kd = join_path (c_root c0) (meta_comps v3 (c_level c0)) -> false = true.
Definition silent (a : writer) : Prop := may b kd None false a = 0.
Lemma J0 a w : bw v3 c0 a -> silent a -> Jr b kd v3 c0 None false (cnt b kd w) (a_append a) (a, w).
Proof. intros X Y. split; cbn [fst snd]; [unfold silent in Y; lia|split; [exact X|reflexivity]]. Qed.
Lemma other_frame m data a w : m + 1 < 2 ^ 32 -> bw v3 c0 a -> a_append a <= m -> silent a -> silent (fst (fst (write_frame E data (a, w)))).
Proof.
  intros Hm X Hq Y. assert (J : Jm b kd v3 c0 None false (cnt b kd w) m (a, w)) by (exists (a_append a); split; [apply J0; assumption|exact Hq]).
  pose proof (write_frame_spec E b kd v3 c0 None false sd sm (cnt b kd w) m data Hm (a, w) J) as S1.
  destruct (OpenProofs.a_write_frame E data (a, w)) as (evs & V & _).
  assert (S2 : exists m', Jm b kd v3 c0 None false (cnt b kd w) m' (fst (write_frame E data (a, w)))).
  { destruct (write_frame E data (a, w)) as [aw' [v|e| |]]; cbn [fst] in *; [destruct S1 as [[_ S1]|[_ S1]]; eauto|eauto..]. }
  destruct S2 as (m' & q & [S2 _] & _). unfold silent. pose proof (OnceStream.may_nn b kd None false (fst (fst (write_frame E data (a, w))))).
  unfold cnt in *. cbn [snd] in V. rewrite V, uploads_app in S2. pose proof (up_nonneg kd evs). lia.
Qed.
Lemma other_finalize m a w : m + 1 < 2 ^ 32 -> bw v3 c0 a -> a_append a <= m -> silent a -> later kd w (snd (fst (finalize_array E (a, w)))).
Proof.
  intros Hm X Hq Y. assert (J : Jm b kd v3 c0 None false (cnt b kd w) m (a, w)) by (exists (a_append a); split; [apply J0; assumption|exact Hq]).
  pose proof (finalize_spec E b kd v3 c0 None false sd sm (cnt b kd w) m Hm (a, w) J) as S1.
  destruct (OpenProofs.a_finalize E (a, w)) as [(evs & V & _) _]. apply (later_intro kd w _ evs); [exact V|]. destruct (finalize_array E (a, w)) as [aw' [v|e| |]]; exact S1.
Qed.
End Other.

(** the array whose document is [km] *)
Section Own.
Variables (c0 : config).
Hypothesis Hb : c_bucket c0 = Some b.
Hypothesis Hk : km = join_path (c_root c0) (meta_comps v3 (c_level c0)).
Hypothesis Hne : km <> kd.
Hypothesis sd : forall q cc, 0 <= q -> Forall (fun i => 0 <= i) cc -> List.length cc = (List.length (firstn (List.length (c_dims c0) - 2) (tl (c_dims c0))) + 1)%nat -> c_bucket c0 = Some b -> km = join_path (c_root c0) (data_comps v3 (c_level c0) q ++ map dec cc) -> @None Z = Some q.
Lemma own_one a : md b km v3 c0 a -> 1 <= may b km None true a.
Proof.
  intros (_ & _ & D). unfold may. pose proof (hsum_nonneg b km (a_sinks a)). unfold futq, futm. unfold doc_sink in D. destruct (a_meta a) as [[f|s]|]; [destruct D| |cbn [h_slot]; lia]. destruct D as [D1 D2]. cbn [h_slot h_sink]. unfold own. rewrite D1, D2, !String.eqb_refl. cbn [andb]. lia.
Qed.
Lemma own_none N m aw : Jm b km v3 c0 None true N m aw -> Md b km v3 c0 aw -> cnt b km (snd aw) <= N - 1.
Proof. intros (q & [X _] & _) Y. pose proof (own_one _ Y). lia. Qed.
Lemma own_finalize m a w : m + 1 < 2 ^ 32 -> Jm b km v3 c0 None true 1 m (a, w) -> Md b km v3 c0 (a, w) -> F (snd (fst (finalize_array E (a, w)))).
Proof.
  intros Hm X Y.
  assert (H : hx (fun aw => Jm b km v3 c0 None true 1 m aw /\ Md b km v3 c0 aw) (finalize_array E) (fun _ aw => F (snd aw)) (fun aw => F (snd aw))).
  2:{ specialize (H (a, w) (conj X Y)). destruct (finalize_array E (a, w)) as [[a' w'] [v|e| |]]; exact H. }
  clear X Y a w. assert (D : forall m aw, Jm b km v3 c0 None true 1 m aw /\ Md b km v3 c0 aw -> F (snd aw)) by (intros m0 aw [X Y]; apply F_none; pose proof (own_none _ _ _ X Y); lia).
  unfold finalize_array. eapply hx_bind with (Q := fun _ aw => Jm b km v3 c0 None true 1 m aw /\ Md b km v3 c0 aw).
  { apply hx_mod. intros a w [(q & X & Hq) Y]. split; [|exact Y]. exists q. split; [|exact Hq]. eapply Jr_eq; [..|exact X]; reflexivity. }
  intros _. eapply hx_bind with (Q := fun _ aw => Jm b km v3 c0 None true 1 (m + 1) aw /\ Md b km v3 c0 aw).
  { eapply hx_catch with (R1 := fun aw => Jm b km v3 c0 None true 1 (m + 1) aw /\ Md b km v3 c0 aw); [|apply D|intros e; apply hx_ret; auto].
    eapply hx_bind with (Q := fun _ aw => Jm b km v3 c0 None true 1 (m + 1) aw /\ Md b km v3 c0 aw); [|intros _; apply hx_ret; auto].
    apply hx_and; [apply flush_spec; auto|apply m_flush; auto]. }
  intros ok. destruct ok; [|apply hx_ret; apply D].
  eapply hx_bind with (Q := fun _ aw => F (snd aw)).
  { intros [a w] [X Y]. pose proof (D _ _ (conj X Y)) as Fw. cbn [snd] in Fw. assert (L : later kd w (snd (fst (on_meta_slot (finalize_sink E) (a, w))))).
    { destruct Y as (_ & _ & Y). cbn [fst] in Y. unfold on_meta_slot. assert (h_slot b kd (a_meta a) = 0).
      { destruct (a_meta a) as [[f|s]|]; [destruct Y| |reflexivity]. destruct Y as [Y1 Y2]. cbn [h_slot h_sink]. unfold own. rewrite Y2. destruct (String.eqb_spec kd km); [congruence|]. rewrite andb_false_r. reflexivity. }
      destruct (o_finalize E b kd (cnt b kd w) (a_meta a, w)) as [O _]; [unfold Ow; cbn [fst snd]; lia|]. destruct (OpenProofs.o_finalize E (a_meta a, w)) as (evs & V & _).
      destruct (finalize_sink E (a_meta a, w)) as [[o w'] r]. unfold Ow in O. cbn [fst snd] in *. apply (later_intro kd w w' evs V). pose proof (h_slot_nonneg b kd o). lia. }
    pose proof (F_later _ _ Fw L) as Fn. destruct (on_meta_slot (finalize_sink E) (a, w)) as [[a' w'] [v|e| |]]; exact Fn. }
  intros ok2. destruct ok2; [|apply hx_ret; auto]. eapply hx_weak; [eapply (hx_pres (fun aw : AW => F (snd aw)) any)| | |]; [|auto|intros v s [X _]; exact X|auto].
  eapply pres_bind with (P := any); [intros aw X; split; [exact X|intros; exact I]|intros a _]. eapply pres_bind with (P := any).
  - apply pres_miter. intros s _. destruct s as [s|]; [|apply pres_ret; exact I]. intros [a' w] X. cbn [fst snd] in X. unfold onWd. cbn [fst snd]. destruct (q_destroy b kd (cnt b kd w) s w eq_refl) as [Q _]. destruct (OpenProofs.w_destroy s w) as (evs & V & _).
    destruct (sink_destroy s w) as [w' r]. unfold Qw in Q. cbn [fst snd] in *. split; [|intros; exact I]. eapply F_later; [exact X|]. apply (later_intro kd w w' evs V). lia.
  - intros _ _. eapply pres_bind with (P := any); [intros aw X; split; [exact X|intros; exact I]|intros _ _; apply pres_ret; exact I].
Qed.
End Own.
End Two.
