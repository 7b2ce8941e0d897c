(** Which data files and objects a writer can touch, when the environment may do anything: those of the grid, for rows that hold frames. *)
Require Import ZArith List Bool String Ascii Lia.
Require Import Verif.Base Verif.Spec Verif.Dim Verif.Limits Verif.Radix Verif.DimProofs Verif.ShardProofs Verif.PathProofs Verif.Json Verif.World Verif.Writer Verif.LayoutProofs Verif.FrameProofs.
Import ListNotations.
Open Scope string_scope. Open Scope list_scope. Open Scope Z_scope.

Section Wr.
Variables (E : env) (v3 : bool) (bpp : Z) (d0 : dim) (mids : list dim) (dy dx : dim) (c0 : config).
Let ds := d0 :: mids ++ [dy; dx].
Hypothesis Hf : fits bpp d0 mids dy dx.
Hypothesis Hsh : v3 = true -> fits_shards d0 mids dy dx.
Hypothesis Hds : c_dims c0 = ds.
Hypothesis Hroot : c_root c0 <> "".
Hypothesis Hplain : c_bucket c0 = None -> String.prefix "file:" (c_root c0) = false.
(** number of parts along a dimension; frames in a row of parts *)
Definition np (d : dim) : Z := if v3 then nsh d else nch d.
Definition per : Z := if v3 then d_chunk d0 * prodZ (map d_array mids) * d_shard d0 else d_chunk d0 * prodZ (map d_array mids).
Let cper := d_chunk d0 * prodZ (map d_array mids).
Lemma cper_pos : 0 < cper < 2 ^ 63.
Proof.
  unfold cper. pose proof (fit_c0 _ _ _ _ _ Hf) as C. assert (A : allpos (map d_array mids)) by (apply inner_allpos_arr, (inner_mids _ _ _ _ _ Hf)). pose proof (prodZ_pos _ A) as P. split; [apply Z.mul_pos_pos; lia|].
  pose proof (fit_period _ _ _ _ _ Hf) as F. eapply Z.le_lt_trans; [|exact F]. apply Z.mul_le_mono_nonneg_l; [lia|].
  assert (X : forall l, Forall inner_ok l -> 0 <= prodZ (map d_array l) <= prodZ (map (fun d => Z.max (d_array d) (d_chunk d)) l)).
  { induction l as [|d l IH]; intros H; cbn; [lia|]. inversion H as [|? ? (H1 & H2 & H3) H4]; subst. destruct (IH H4). split; [apply Z.mul_nonneg_nonneg; lia|apply Z.mul_le_mono_nonneg; lia]. }
  apply X. apply (inner_mids _ _ _ _ _ Hf).
Qed.
Lemma per_pos : 0 < per.
Proof. pose proof cper_pos as C. unfold cper in C. unfold per. destruct v3; [|lia]. pose proof (fit_s0 _ _ _ _ (Hsh eq_refl)). apply Z.mul_pos_pos; lia. Qed.
Lemma fbf k : 0 <= k -> k * prodZ (map d_array mids) < 2 ^ 64 -> frames_before_flush ds k = k * prodZ (map d_array mids).
Proof.
  intros. unfold frames_before_flush, ds. rewrite mid_dims_eq. apply (fold_mul_exact u64 (2 ^ 64)); auto.
  - intros x Hx. apply u64_id; auto.
  - apply inner_allpos_arr, (inner_mids _ _ _ _ _ Hf).
Qed.
Lemma flush_when a : a_cfg a = c0 -> should_flush a = Ok (a_frames a mod cper =? 0).
Proof.
  intros Hc. unfold should_flush. rewrite Hc, Hds. assert (Ef : final_dim ds = d0) by apply final_dim_eq. rewrite Ef. pose proof cper_pos as C. cbv zeta.
  rewrite fbf by (try (fold cper); pose proof (fit_c0 _ _ _ _ _ Hf); lia). fold cper. rewrite (proj2 (Z.ltb_lt 0 cper)) by lia. reflexivity.
Qed.
Lemma roll_when a b : a_cfg a = c0 -> a_v3 a = v3 -> should_rollover a = Ok b -> b = true -> a_frames a mod cper = 0 -> a_frames a mod per = 0.
Proof.
  intros Hc Hv. unfold should_rollover, per. rewrite Hv. destruct v3 eqn:V; [|auto]. rewrite Hc, Hds. assert (Ef : final_dim ds = d0) by apply final_dim_eq. rewrite Ef. cbv zeta.
  pose proof (fit_c0 _ _ _ _ _ Hf) as C0. pose proof (fit_spp _ _ _ _ (Hsh eq_refl)) as C1. pose proof (fit_s0 _ _ _ _ (Hsh eq_refl)) as C2. pose proof (fit_speriod _ _ _ _ (Hsh eq_refl)) as C3.
  rewrite u32_id by (split; [apply Z.mul_nonneg_nonneg; lia|exact C1]). rewrite fbf; [|apply Z.mul_nonneg_nonneg; lia|lia].
  replace (d_chunk d0 * prodZ (map d_array mids) * d_shard d0) with (d_chunk d0 * d_shard d0 * prodZ (map d_array mids)) by ring.
  destruct (0 <? _); [|discriminate]. intros X ->. injection X as X. intros _. apply Z.eqb_eq. exact X.
Qed.
Lemma parts_ok a d : a_v3 a = v3 -> In d (mids ++ [dy; dx]) -> parts_along a d = Ok (np d) /\ 0 < np d.
Proof.
  intros V Hd. pose proof (proj1 (Forall_forall _ _) (fit_inner _ _ _ _ _ Hf) d Hd) as I0. unfold parts_along, np. rewrite V. destruct v3 eqn:V3.
  - pose proof (proj1 (Forall_forall _ _) (fit_sinner _ _ _ _ (Hsh eq_refl)) d Hd) as S1. split; [apply shards_along_ok; auto|apply nsh_pos; auto].
  - split; [apply chunks_along_ok; auto|apply nch_pos; auto].
Qed.

Variable okf : string -> Prop.
Variable N : Z.
Hypothesis ok_data : forall q cc, 0 <= q -> q * per < N -> in_bounds (map np (mids ++ [dy; dx])) cc -> okf (join_path (c_root c0) (data_comps v3 (c_level c0) q ++ map dec cc)).
Hypothesis ok_meta : okf (join_path (c_root c0) (meta_comps v3 (c_level c0))).

Definition okd (_ : string) : Prop := True.
Definition oko (_ k : string) : Prop := okf k.
Notation Iw := (Iw okd okf okd oko okd).
Notation okslot := (okslot okf oko).
Notation pw := (pres Iw).
Lemma okm_any m : m <> "" -> okd m. Proof. intros; exact I. Qed.

(** the paths *)
Lemma p_any {A} (m : M world A) (Q : A -> Prop) : pw any m -> (forall w v, snd (m w) = Ok v -> Q v) -> pw Q m.
Proof. intros H K w X. destruct (H w X) as [A1 _]. split; eauto. Qed.
Lemma p_dirs l : pw any (make_dirs E l).
Proof. apply p_make_dirs; [exact okm_any|]. apply Forall_forall. intros; exact I. Qed.
Ltac st := first [apply pres_ret; first [exact I|assumption|auto] | apply pres_throw | apply pres_expect; exact I | apply pres_lift; intros; exact I].
Lemma p_paths base a mk : a_v3 a = v3 -> base <> "" -> pw (fun l => l = grid_paths base (map np (mids ++ [dy; dx]))) (make_data_sink_paths E base ds (parts_along a) mk).
Proof.
  intros V Hb. unfold make_data_sink_paths.
  assert (I1 : firstn (List.length ds - 2) (tl ds) = mids ++ [dy]).
  { unfold ds. cbn [tl List.length]. rewrite app_length. cbn [List.length]. replace (S (List.length mids + 2) - 2)%nat with (List.length (mids ++ [dy])) by (rewrite app_length; cbn; lia).
    replace (mids ++ [dy; dx]) with ((mids ++ [dy]) ++ [dx]) by (rewrite <- app_assoc; auto). rewrite firstn_app, firstn_all, Nat.sub_diag. cbn. apply app_nil_r. }
  assert (I2 : width_dim ds = dx) by apply width_dim_eq. rewrite I1, I2.
  assert (Pos : forall l r, l ++ r = mids ++ [dy; dx] -> allpos (map np l)).
  { intros l r X. apply Forall_map, Forall_forall. intros d Hd. apply (parts_ok a d V). rewrite <- X. apply in_or_app. auto. }
  eapply pres_bind with (P := any). { destruct mk; [eapply pres_bind; [apply p_dirs|intros ? _; st]|st]. } intros _ _.
  eapply pres_bind with (P := fun l => l = grid_paths base (map np (mids ++ [dy]))).
  - assert (G : forall todo done, mids ++ [dy] = done ++ todo -> pw (fun l => l = grid_paths base (map np (mids ++ [dy])))
      (mfold (fun paths d => n <- liftM (parts_along a d) ;; expectM (negb (n =? 0)) "CHECK(n_parts)" ;;; let paths' := extend_paths paths n in
         (if mk then ok <- make_dirs E paths' ;; expectM ok "Failed to create directories for dimension" else ret tt) ;;; ret paths') todo (grid_paths base (map np done)))).
    { induction todo as [|d todo IH]; intros done Heq; cbn [mfold].
      - rewrite app_nil_r in Heq. rewrite Heq. apply pres_ret. reflexivity.
      - assert (Hin : In d (mids ++ [dy; dx])). { replace (mids ++ [dy; dx]) with ((mids ++ [dy]) ++ [dx]) by (rewrite <- app_assoc; auto). rewrite Heq. apply in_or_app. left. apply in_or_app. right. left; auto. }
        destruct (parts_ok a d V Hin) as [Pd Nd].
        assert (Px : allpos (map np done)). { apply (Pos done (d :: todo ++ [dx])). rewrite app_comm_cons, app_assoc, <- Heq, <- app_assoc. reflexivity. }
        eapply pres_bind with (P := fun l => l = grid_paths base (map np (done ++ [d]))).
        + rewrite Pd. eapply pres_bind with (P := fun n => n = np d); [apply pres_lift; intros v X; congruence|]. intros n ->. eapply pres_bind with (P := any); [st|intros ? _]. cbv zeta.
          eapply pres_bind with (P := any). { destruct mk; [eapply pres_bind; [apply p_dirs|intros ? _; st]|st]. } intros _ _. apply pres_ret. rewrite map_app. apply extend_grid; auto.
        + intros l ->. apply IH. rewrite Heq, <- app_assoc. reflexivity. }
    specialize (G (mids ++ [dy]) [] eq_refl). exact G.
  - intros l ->. destruct (parts_ok a dx V) as [Pd Nd]; [apply in_or_app; right; right; left; reflexivity|]. rewrite Pd.
    eapply pres_bind with (P := fun n => n = np dx); [apply pres_lift; intros v X; congruence|]. intros n ->. eapply pres_bind with (P := any); [st|intros ? _]. apply pres_ret.
    replace (mids ++ [dy; dx]) with ((mids ++ [dy]) ++ [dx]) by (rewrite <- app_assoc; auto). rewrite (map_app np (mids ++ [dy])). apply final_grid; auto. apply (Pos (mids ++ [dy]) [dx]). rewrite <- app_assoc. reflexivity.
Qed.

(** *** one array: [n] frames so far, [q] the row of parts *)
Section Row.
Variables n q : Z.
Definition jw (a : writer) : Prop := Forall okslot (a_sinks a) /\ okslot (a_meta a) /\ (a_cfg a = c0 /\ a_v3 a = v3 /\ a_frames a = n /\ a_append a = q).
Definition Ja (aw : AW) : Prop := Iw (snd aw) /\ jw (fst aw).
Notation pa := (pres Ja).
Notation pk := (pres (Ik okd okf okd oko okd)).
Notation po := (pres (Io okd okf okd oko okd)).
Lemma a_onWd {A} (Q : A -> Prop) m : pw Q m -> pa Q (onWd m).
Proof. intros H [a w] [X Y]. unfold onWd. cbn [fst snd] in *. specialize (H w X). destruct (m w) as [w' r]. cbn in *. destruct H. split; [split; auto|auto]. Qed.
Lemma a_getA : pa jw getA.
Proof. intros [a w] [X Y]. split; [split; auto|]. cbn. intros v Z. injection Z as <-. auto. Qed.
Lemma a_modA f : (forall a, jw a -> jw (f a)) -> pa any (modA f).
Proof. intros H [a w] [X Y]. split; [split; cbn; auto|]. intros; exact I. Qed.
Lemma a_on_sink {A} (Q : A -> Prop) i m : pk Q m -> pa Q (on_sink i m).
Proof.
  intros H [a w] [X (Y1 & Y2 & Y3)]. cbn [fst snd] in *. unfold on_sink. pose proof (okslot_nth okf oko _ i Y1) as Z. destruct (nth i (a_sinks a) None) as [s|]; [|split; [split; [auto|split; auto]|discriminate]].
  specialize (H (s, w) (conj X Z)). destruct (m (s, w)) as [[s' w'] r]. cbn in *. destruct H as [[H1 H2] H3]. split; [|auto]. split; [auto|]. split; [apply okslots_upd; auto|]. auto.
Qed.
Lemma a_on_slot {A} (Q : A -> Prop) i m : po Q m -> pa Q (on_slot i m).
Proof.
  intros H [a w] [X (Y1 & Y2 & Y3)]. cbn [fst snd] in *. unfold on_slot. pose proof (okslot_nth okf oko _ i Y1) as Z.
  specialize (H (nth i (a_sinks a) None, w) (conj X Z)). destruct (m (nth i (a_sinks a) None, w)) as [[s' w'] r]. cbn in *. destruct H as [[H1 H2] H3]. split; [|auto]. split; [auto|]. split; [apply okslots_upd; auto|]. auto.
Qed.
Lemma a_on_meta {A} (Q : A -> Prop) m : pk Q m -> pa Q (on_meta m).
Proof.
  intros H [a w] [X (Y1 & Y2 & Y3)]. cbn [fst snd] in *. unfold on_meta. destruct (a_meta a) as [s|] eqn:Em; [|split; [split; [auto|split; [auto|split; [cbn; rewrite Em; auto|auto]]]|discriminate]].
  specialize (H (s, w) (conj X Y2)). destruct (m (s, w)) as [[s' w'] r]. cbn in *. destruct H as [[H1 H2] H3]. split; [|auto]. split; [auto|]. split; [auto|]. auto.
Qed.
Lemma a_on_meta_slot {A} (Q : A -> Prop) m : po Q m -> pa Q (on_meta_slot m).
Proof.
  intros H [a w] [X (Y1 & Y2 & Y3)]. cbn [fst snd] in *. unfold on_meta_slot.
  specialize (H (a_meta a, w) (conj X Y2)). destruct (m (a_meta a, w)) as [[s' w'] r]. cbn in *. destruct H as [[H1 H2] H3]. split; [|auto]. split; [auto|]. split; [auto|]. auto.
Qed.
Ltac ag := eapply pres_bind; [apply a_getA|intros ? ?].
Lemma p_done m b : pw any (job_done (b, m)).
Proof. apply p_done; [exact okm_any|left; exact I]. Qed.
Ltac a1 := first [apply a_modA; intros ? X; exact X | apply a_onWd; apply p_done | st].
Ltac bd := eapply pres_bind with (P := any); [|intros ? _].
Tactic Notation "bn" ident(x) := eapply pres_bind with (P := any); [|intros x _].
Lemma a_write i off d : pa any (on_sink i (sink_write E off d)).
Proof. apply a_on_sink, k_write. Qed.
Lemma a_compress : pa any (compress_buffers E).
Proof.
  unfold compress_buffers. ag. destruct (c_comp (a_cfg a)) as [pr|]; [|st]. bd; [st|]. apply pres_miter. intros i _. ag. destruct (e_compress E pr a0 (nth i (a_bufs a1) [])); [bd; a1|a1].
Qed.
Hypothesis Hq : 0 <= q /\ q * per < N.
Lemma a_make_data : pa any (make_data_sinks E).
Proof.
  unfold make_data_sinks. ag. destruct H as (H1 & H2 & H3 & H4 & H5 & H6). rewrite H3.
  assert (R : data_root a = join_path (c_root c0) (data_comps v3 (c_level c0) q)) by (rewrite data_root_join, H3, H4, H6; reflexivity).
  assert (Rn : data_root a <> "") by (rewrite R; unfold data_comps; destruct v3; apply root_join_nonempty; auto).
  assert (G : forall p, In p (grid_paths (data_root a) (map np (mids ++ [dy; dx]))) -> okf p).
  { intros p Hp. unfold grid_paths in Hp. apply in_map_iff in Hp as (cc & <- & Hcc). apply in_grid in Hcc.
    - rewrite R. unfold path_of_coords. rewrite <- join_path_app. apply ok_data; tauto.
    - apply Forall_map, Forall_forall. intros d Hd. apply (parts_ok a d H4 Hd). }
  eapply pres_bind with (P := okslots okf oko).
  - apply a_onWd. destruct (c_bucket c0) as [b|] eqn:B.
    + unfold make_data_sinks_s3. eapply pres_bind with (P := any); [st|intros ? _]. rewrite Hds. eapply pres_bind; [apply p_paths; auto|]. intros l ->.
      destruct (b =? "")%string; [apply pres_ret; exact I|]. eapply pres_bind with (P := Forall okslot); [|intros l Hl; apply pres_ret; exact Hl].
      apply pres_mfold; [|constructor]. intros acc k Hk Hacc. eapply pres_bind; [apply p_s3_sink; unfold oko; auto|]. intros s Hs. apply pres_ret. apply Forall_app. split; auto; repeat constructor; auto.
    + unfold make_data_sinks_fs. cbv zeta.
      assert (SR : strip_file (data_root a) = data_root a) by (rewrite R; unfold data_comps; destruct v3; apply strip_join; auto). rewrite SR, Hds.
      eapply pres_bind with (P := any); [st|intros ? _].
      eapply pres_bind with (P := fun o : option (list string) => match o with Some l => Forall okf l | None => True end).
      * apply pres_catch; [|intros; apply pres_ret; exact I]. eapply pres_bind; [apply p_paths; auto|]. intros l ->. apply pres_ret. apply Forall_forall. exact G.
      * intros [l|] Hl; [|apply pres_ret; exact I]. eapply pres_bind; [apply p_make_files; auto using okm_any|]. intros s Hs. apply pres_ret. exact Hs.
  - intros [l|] Hl; [|st]. bd; [|st]. apply a_modA. intros a' (_ & Y). split; auto.
Qed.
Lemma a_make_meta : pa any (make_metadata_sink E).
Proof.
  unfold make_metadata_sink. ag. destruct (a_meta a) eqn:Em; [st|]. destruct H as (H1 & H2 & H3 & H4 & H5 & H6).
  assert (R : metadata_path a = join_path (c_root c0) (meta_comps v3 (c_level c0))) by (rewrite metadata_path_join, H3, H4; reflexivity).
  eapply pres_bind with (P := okslot).
  - apply a_onWd. rewrite R, H3. destruct (c_bucket c0) as [b|] eqn:B.
    + unfold make_sink_s3. eapply pres_bind with (P := any); [st|intros ? _]. eapply pres_bind with (P := any); [st|intros ? _]. eapply pres_bind; [apply p_bucket; exact okm_any|intros ok _]. destruct ok; [|apply pres_ret; exact I].
      eapply pres_bind; [apply p_s3_sink; exact ok_meta|]. intros s Hs. apply pres_ret. exact Hs.
    + assert (SR : strip_file (join_path (c_root c0) (meta_comps v3 (c_level c0))) = join_path (c_root c0) (meta_comps v3 (c_level c0))) by (unfold meta_comps; destruct v3; apply strip_join; auto).
      unfold make_sink_fs. cbv zeta. rewrite SR. eapply pres_bind with (P := any); [st|intros ? _]. eapply pres_bind with (P := any); [apply p_isdir|intros d _].
      eapply pres_bind with (P := any); [destruct d; [st|apply p_mkdirs; exact I]|]. intros ok _. destruct ok; [|apply pres_ret; exact I].
      eapply pres_bind; [apply p_file_sink; exact ok_meta|]. intros f F. apply pres_ret. cbn. rewrite F. exact ok_meta.
  - intros [l|] Hl; [|st]. bd; [|st]. apply a_modA. intros a' (Y1 & Y2 & Y3). split; auto.
Qed.
Lemma a_write_meta : pa any (write_array_metadata E).
Proof.
  unfold write_array_metadata. eapply pres_bind with (P := any); [apply a_make_meta|intros ok _]. destruct ok; [|st]. ag. cbv zeta. destruct (a_v3 a).
  - eapply pres_bind with (P := any); [st|intros k _]. destruct (dtype_v3 _); [apply a_on_meta, k_write|st].
  - destruct (dtype_v2 _); [|st]. eapply pres_bind with (P := any); [st|intros k _]. apply a_on_meta, k_write.
Qed.
Lemma a_v2_job i : pa any (v2_job E i).
Proof. unfold v2_job. ag. bd; [|a1; apply p_done]. apply pres_catch; [|intros; st]. bd; [apply a_write|]. bd; st. Qed.
Lemma a_flush_v2 : pa any (flush_impl_v2 E).
Proof. unfold flush_impl_v2. ag. bd; [st|]. bn ok; [apply a_make_data|]. destruct ok; [|st]. ag. bd; [st|]. bd; [|st]. apply pres_miter. intros; apply a_v2_job. Qed.
Lemma a_v3_chunk s b ci : pa any (v3_chunk E s b ci).
Proof.
  unfold v3_chunk. ag. cbv zeta. bn r.
  - apply pres_catch; [|intros; st]. bd; [apply a_write|st].
  - destruct r as [[] [m|]]; [st| |st|st]. apply pres_catch; [|intros; st]. repeat (bd; [a1|]). st.
Qed.
Lemma a_v3_chunks s : forall cs b, pa any (v3_chunks E s cs b).
Proof. induction cs as [|c cs IH]; intros b; cbn [v3_chunks]; [st|]. bn r; [apply a_v3_chunk|]. destruct r as [[] [m|]]; try st. apply IH. Qed.
Lemma a_v3_table s : pa any (v3_table E s).
Proof. unfold v3_table. ag. apply pres_catch; [|intros; st]. bd; [apply a_write|st]. Qed.
Lemma a_v3_job tb cis s : pa any (v3_job E tb cis s).
Proof.
  unfold v3_job. bn r; [apply a_v3_chunks|]. bn r2; [destruct r as [[] [m|]]; [st| |st|st]; destruct tb; [apply a_v3_table|st]|]. destruct r2 as [b [m|]]; a1; apply p_done.
Qed.
Lemma a_flush_v3 : pa any (flush_impl_v3 E).
Proof.
  unfold flush_impl_v3. ag. bn ok; [destruct (a_sinks a); [apply a_make_data|st]|]. destruct ok; [|st]. ag. cbv zeta. bd; [st|]. bd; [st|]. bd; [st|].
  bd; [destruct (a_final a0); st|]. bd; [apply pres_miter; intros; apply a_v3_job|]. bd; [|st]. match goal with |- pres _ _ (if ?b then _ else _) => destruct b end; a1.
Qed.
Lemma a_flush_impl : pa any (flush_impl E).
Proof. unfold flush_impl. ag. destruct (a_v3 a); [apply a_flush_v3|apply a_flush_v2]. Qed.
Lemma a_close : pa any (close_sinks E).
Proof.
  unfold close_sinks. ag. bd; [|apply a_modA; intros a' (_ & Y); split; [constructor|exact Y]]. apply pres_miter. intros i _. bd; [apply a_on_slot, o_finalize|st].
Qed.
End Row.

(** from [P]: [Q] if the program returns, [R] otherwise *)
Definition hx {S A} (P : S -> Prop) (m : M S A) (Q : A -> S -> Prop) (R : S -> Prop) : Prop :=
  forall s, P s -> match m s with (s', Ok v) => Q v s' | (s', _) => R s' end.
Lemma hx_ret {S A} (P : S -> Prop) (Q : A -> S -> Prop) R a : (forall s, P s -> Q a s) -> hx P (ret a) Q R.
Proof. intros H s X. exact (H s X). Qed.
Lemma hx_bind {S A B} (P : S -> Prop) (Q : A -> S -> Prop) (Q' : B -> S -> Prop) R m f : hx P m Q R -> (forall a, hx (Q a) (f a) Q' R) -> hx P (bind m f) Q' R.
Proof. intros H K s X. specialize (H s X). unfold bind. destruct (m s) as [s' [v|e| |]]; auto. apply K; auto. Qed.
Lemma hx_catch {S A} (P : S -> Prop) (Q : A -> S -> Prop) R1 (R : S -> Prop) m h : hx P m Q R1 -> (forall s, R1 s -> R s) -> (forall e, hx R1 (h e) Q R) -> hx P (catchM m h) Q R.
Proof. intros H K L s X. specialize (H s X). unfold catchM. destruct (m s) as [s' [v|e| |]]; auto. apply L; auto. Qed.
Lemma hx_weak {S A} (P P' : S -> Prop) (Q Q' : A -> S -> Prop) (R R' : S -> Prop) m : hx P m Q R -> (forall s, P' s -> P s) -> (forall v s, Q v s -> Q' v s) -> (forall s, R s -> R' s) -> hx P' m Q' R'.
Proof. intros H a b c s X. specialize (H s (a s X)). destruct (m s) as [s' [v|e| |]]; auto. Qed.
Lemma hx_pres {S A} (I : S -> Prop) (Q : A -> Prop) m : pres I Q m -> hx I m (fun v s => I s /\ Q v) I.
Proof. intros H s X. specialize (H s X). destruct (m s) as [s' [v|e| |]]; cbn in H; destruct H as [Ha Hb]; auto. Qed.
Lemma hx_getA {B} (P : AW -> Prop) (f : writer -> M AW B) Q R : (forall a, hx (fun aw => P aw /\ fst aw = a) (f a) Q R) -> hx P (a <- getA ;; f a) Q R.
Proof. intros H [a w] X. unfold bind, getA. cbn. apply (H a (a, w)). auto. Qed.
Lemma hx_lift {S A} (P : S -> Prop) (Q : A -> S -> Prop) (R : S -> Prop) o : (forall s v, o = Ok v -> P s -> Q v s) -> (forall s, P s -> R s) -> hx P (liftM o) Q R.
Proof. intros H K s X. cbn. destruct o; auto. Qed.
Lemma hx_expect {S} (P : S -> Prop) (Q : unit -> S -> Prop) (R : S -> Prop) c e : (forall s, P s -> c = true -> Q tt s) -> (forall s, P s -> R s) -> hx P (expectM c e) Q R.
Proof. intros H K s X. destruct c; cbn; auto. Qed.
Lemma hx_mod (P : AW -> Prop) (Q : unit -> AW -> Prop) R f : (forall a w, P (a, w) -> Q tt (f a, w)) -> hx P (modA f) Q R.
Proof. intros H [a w] X. cbn. auto. Qed.
Lemma hx_pre {S A} (P P' : S -> Prop) (Q : A -> S -> Prop) R m : hx P m Q R -> (forall s, P' s -> P s) -> hx P' m Q R.
Proof. intros H a. eapply hx_weak; eauto. Qed.

(** after a flush, or part of one: the row, or the next *)
Definition moved (n q : Z) (aw : AW) : Prop :=
  exists q', Ja n q' aw /\ (q' = q \/ (q' = u32 (q + 1) /\ (n mod cper = 0 -> n mod per = 0))).
Lemma moved_same n q aw : Ja n q aw -> moved n q aw.
Proof. intros H. exists q. auto. Qed.
Lemma hx_moved {A} (Q : A -> Prop) n q m : (forall q', pres (Ja n q') Q m) -> hx (moved n q) m (fun _ => moved n q) (moved n q).
Proof.
  intros H s (q' & X & Y). specialize (H q' s X). destruct H as [H _]. destruct (m s) as [s' [v|e| |]]; exists q'; auto.
Qed.
Lemma mk_bufs a b : make_buffers a = Ok b -> exists l, b = set_bufs a l.
Proof. unfold make_buffers. destruct (number_of_chunks_in_memory _); try discriminate. destruct (bytes_per_chunk _ _); try discriminate. intros X. injection X as <-. eauto. Qed.
Lemma jw_bufs n q a l : jw n q a -> jw n q (set_bufs a l).
Proof. intros H. exact H. Qed.
Lemma jw_toflush n q a t : jw n q a -> jw n q (set_toflush a t).
Proof. intros H. exact H. Qed.
Lemma flush_spec n q : 0 <= q -> hx (fun aw => Ja n q aw /\ (a_toflush (fst aw) = 0 \/ q * per < N)) (flush E) (fun _ aw => moved n q aw /\ a_toflush (fst aw) = 0) (moved n q).
Proof.
  intros Hq. unfold flush. apply hx_getA. intros a. destruct (Z.eqb_spec (a_toflush a) 0) as [Z0|Z0].
  - apply hx_ret. intros [a' w] [[X _] Y]. cbn in *. subst a'. split; [apply moved_same; auto|auto].
  - intros s [[X [HR|HR]] F]; [rewrite F in HR; contradiction|]. revert s X F.
    assert (G : hx (Ja n q) (compress_buffers E ;;; ok <- flush_impl E ;; expectM ok "CHECK(flush_impl_())" ;;; a <- getA ;; roll <- liftM (should_rollover a) ;;
      (if roll then rollover E else ret tt) ;;; a <- getA ;; (if roll || a_final a then ok <- write_array_metadata E ;; expectM ok "CHECK(write_array_metadata_())" else ret tt) ;;;
      a <- getA ;; a' <- liftM (make_buffers a) ;; modA (fun _ => set_toflush a' 0)) (fun _ aw => moved n q aw /\ a_toflush (fst aw) = 0) (moved n q)).
    2:{ intros s X F. apply (G s X). }
    assert (K : forall A (m : M AW A), pres (Ja n q) any m -> hx (Ja n q) m (fun _ => Ja n q) (moved n q)).
    { intros A m H. eapply hx_weak; [apply hx_pres; exact H|auto|intros v s [X _]; exact X|apply moved_same]. }
    eapply hx_bind; [apply K, a_compress|intros ?]. eapply hx_bind; [apply K, a_flush_impl; auto|intros ok]. eapply hx_bind; [apply K; st|intros ?].
    apply hx_getA. intros b. eapply hx_bind with (Q := fun roll aw => Ja n q aw /\ (roll = true -> n mod cper = 0 -> n mod per = 0)).
    { apply hx_lift; [|intros s [X _]; apply moved_same; exact X]. intros [b' w] r Hr [X Y]. cbn in Y. subst b'. split; [exact X|]. intros R.
      destruct X as [_ (_ & _ & X1 & X2 & X3 & _)]. cbn in *. rewrite <- X3. apply (roll_when b r); auto. }
    intros roll. eapply hx_bind with (Q := fun _ => moved n q).
    { destruct roll; [|apply hx_ret; intros s [X _]; apply moved_same; exact X]. unfold rollover.
      eapply hx_bind with (Q := fun _ aw => Ja n q aw /\ (n mod cper = 0 -> n mod per = 0)).
      - intros s [X Y]. specialize (K _ _ (a_close n q) s X). specialize (Y eq_refl). destruct (close_sinks E s) as [s' [v|e| |]]; auto.
      - intros _. apply hx_mod. intros a' w [[X (Y1 & Y2 & Y3 & Y4 & Y5 & Y6)] Z]. cbn in *. exists (u32 (q + 1)). split; [|auto]. split; [exact X|].
        split; [exact Y1|]. split; [exact Y2|]. cbn. rewrite Y6. auto. }
    intros _. apply hx_getA. intros c. eapply hx_bind with (Q := fun _ => moved n q).
    { eapply hx_pre; [|intros s [X _]; exact X]. destruct (roll || a_final c); [|apply hx_ret; auto].
      eapply hx_bind; [apply hx_moved with (Q := any); intros q'; apply a_write_meta|]. intros ok2. apply hx_expect; auto. }
    intros _. apply hx_getA. intros d. eapply hx_bind with (Q := fun d' aw => moved n q aw /\ fst aw = d /\ exists l, d' = set_bufs d l).
    { apply hx_lift; [|intros s [X _]; exact X]. intros s v Hv [X Y]. split; auto. split; auto. eapply mk_bufs; eauto. }
    intros d'. apply hx_mod. intros a' w ((q' & X & Y) & Z & l & ->). cbn in *. subst a'. split; [|reflexivity]. exists q'. split; auto.
Qed.
(** what is always true of a writer *)
Record grown (a : writer) : Prop := { gr_q : 0 <= a_append a; gr_n : 0 <= a_frames a; gr_le : a_append a * per <= a_frames a; gr_j : jw (a_frames a) (a_append a) a }.
Definition Gw (aw : AW) : Prop := Iw (snd aw) /\ grown (fst aw).
(** buffered frames are in the current row *)
Definition tight (a : writer) : Prop := a_toflush a <> 0 -> a_append a * per < a_frames a.
Lemma mod_row q n : 0 <= q -> 0 <= n -> q * per <= n -> (n + 1) mod per = 0 -> (q + 1) * per <= n + 1.
Proof. pose proof per_pos as P. intros Hq Hn H M. apply Z.mod_divide in M as [k K]; [|lia]. rewrite K in *. assert (q < k) by nia. nia. Qed.
Lemma write_frame_spec (data : list Z) n (strict : Prop) :
  n + 1 <= N -> n + 1 < 2 ^ 32 ->
  hx (fun aw => Gw aw /\ a_frames (fst aw) = n /\ (strict -> tight (fst aw))) (write_frame E data)
     (fun v aw => Gw aw /\ ((v = 0 /\ a_frames (fst aw) = n) \/ (v = zlen data /\ a_frames (fst aw) = n + 1)) /\ (strict -> tight (fst aw)))
     (fun aw => Gw aw /\ n <= a_frames (fst aw) <= n + 1).
Proof.
  intros HN H32. unfold write_frame.
  assert (B : forall aw, Gw aw /\ a_frames (fst aw) = n -> Gw aw /\ n <= a_frames (fst aw) <= n + 1) by (intros aw [X Y]; split; [exact X|lia]).
  apply hx_getA. intros a. eapply hx_bind with (Q := fun _ aw => Gw aw /\ a_frames (fst aw) = n /\ (strict -> tight (fst aw)) /\ fst aw = a).
  { apply hx_lift; [|intros s X; apply B; tauto]. intros s v _ X. tauto. }
  intros nf. destruct (nf =? zlen data) eqn:Ez; cbn [negb].
  2:{ apply hx_ret. intros s (X1 & X2 & X3 & X4). auto. }
  eapply hx_bind with (Q := fun _ aw => Gw aw /\ a_frames (fst aw) = n).
  { destruct (a_bufs a); [|apply hx_ret; tauto]. eapply hx_bind with (Q := fun b aw => Gw aw /\ a_frames (fst aw) = n /\ exists l, b = set_bufs (fst aw) l).
    - apply hx_lift; [|intros s X; apply B; tauto]. intros [b w] v Hv (X1 & X2 & X3 & X4). cbn in *. subst b. split; auto. split; auto. eapply mk_bufs; eauto.
    - intros b. apply hx_mod. intros c w ([X1 [X2 X3 X4 X5]] & Y & l & ->). cbn in *. split; [|exact Y]. split; [exact X1|]. split; auto. }
  intros _. apply hx_getA. intros b. eapply hx_bind with (Q := fun _ aw => Gw aw /\ a_frames (fst aw) = n).
  { apply hx_lift; [|intros s X; apply B; tauto]. intros s v _ X. tauto. }
  intros [bufs written]. eapply hx_bind with (Q := fun _ aw => Gw aw /\ a_frames (fst aw) = n).
  { apply hx_mod. intros c w ([X1 [X2 X3 X4 X5]] & Y). cbn in *. split; [|exact Y]. split; [exact X1|]. split; auto. }
  intros _. destruct (Z.eqb_spec written (zlen data)) as [->|Hw].
  2:{ intros s X. apply B. exact X. }
  eapply hx_bind with (Q := fun _ aw => Gw aw /\ a_frames (fst aw) = n); [apply hx_expect; auto|intros _].
  eapply hx_bind with (Q := fun _ aw => exists q, Ja (n + 1) q aw /\ 0 <= q /\ 0 <= n /\ q * per <= n).
  { apply hx_mod. intros c w ([X1 [X2 X3 X4 (X5 & X6 & X7 & X8 & X9 & X10)]] & Y). cbn [fst snd] in *. exists (a_append c). subst n. split; [|auto]. split; [exact X1|]. split; [exact X5|]. split; [exact X6|].
    cbn. rewrite u32_id by lia. auto. }
  intros _.
  assert (C : forall aw q, Ja (n + 1) q aw -> 0 <= q -> 0 <= n -> q * per <= n + 1 -> Gw aw /\ a_frames (fst aw) = n + 1).
  { intros [c w] q [X1 X2] Hq Hn Hle. cbn [fst snd] in *. assert (Y := X2). destruct Y as (_ & _ & _ & _ & Y1 & Y2). split; [|exact Y1]. split; [exact X1|]. cbn [fst]. split; rewrite ?Y1, ?Y2; auto; lia. }
  assert (U : forall q, 0 <= q -> 0 <= n -> q * per <= n -> u32 (q + 1) = q + 1).
  { intros q Hq Hn Hle. apply u32_id. pose proof per_pos. nia. }
  apply hx_getA. intros c. eapply hx_bind with (Q := fun sf aw => exists q, Ja (n + 1) q aw /\ 0 <= q /\ 0 <= n /\ q * per <= n /\ (sf = true -> (n + 1) mod cper = 0)).
  { apply hx_lift.
    - intros [c' w] v Hv ((q & X & Hq & Hn & Hle) & Y). cbn in Y. subst c'. exists q. repeat match goal with |- _ /\ _ => split end; auto. intros ->.
      destruct X as [_ (_ & _ & X1 & X2 & X3 & _)]. cbn in *. rewrite (flush_when c X1), X3 in Hv. injection Hv as Hv. apply Z.eqb_eq. exact Hv.
    - intros s ((q & X & Hq & Hn & Hle) & Y). destruct (C s q X Hq Hn) as [C1 C2]; [lia|]. split; [exact C1|lia]. }
  intros sf. eapply hx_bind with (Q := fun _ aw => (Gw aw /\ a_frames (fst aw) = n + 1) /\ tight (fst aw)).
  - destruct sf.
    + intros s (q & X & Hq & Hn & Hle & M). specialize (M eq_refl).
      assert (HR : q * per < N) by lia. assert (F := flush_spec (n + 1) q Hq s (conj X (or_intror HR))).
      assert (D : forall aw, moved (n + 1) q aw -> Gw aw /\ a_frames (fst aw) = n + 1).
      { intros aw (q' & Y & [->|[-> R]]); [apply (C aw q); auto; lia|]. rewrite (U q) in * by auto. apply (C aw (q + 1)); auto; [lia|]. apply mod_row; auto. }
      destruct (flush E s) as [s' [v|e| |]]; [destruct F as [F T]; split; [apply D; exact F|intros K; contradiction]|..]; destruct (D _ F) as [D1 D2]; (split; [exact D1|lia]).
    + apply hx_ret. intros s (q & X & Hq & Hn & Hle & _). destruct (C s q X Hq Hn) as [C1 C2]; [lia|]. split; [auto|]. intros _. destruct X as [_ (_ & _ & _ & _ & Y1 & Y2)]. rewrite Y1, Y2. lia.
  - intros _. apply hx_ret. intros s [[X Y] Z]. auto.
Qed.
Lemma finalize_spec : hx (fun aw => Gw aw /\ (a_toflush (fst aw) = 0 \/ a_append (fst aw) * per < N)) (finalize_array E) (fun _ aw => Iw (snd aw)) (fun aw => Iw (snd aw)).
Proof.
  intros [a w] [[X [Hq Hn Hle Hj]] Y]. cbn [fst snd] in *. set (n := a_frames a) in *. set (q := a_append a) in *.
  assert (D : forall aw, moved n q aw -> Iw (snd aw)) by (intros aw (q' & [Z _] & _); exact Z).
  revert Hj Y. generalize (eq_refl : a_append a = q). intros _ Hj Y. 
  assert (G : hx (fun aw => Ja n q aw /\ (a_toflush (fst aw) = 0 \/ q * per < N)) (finalize_array E) (fun _ aw => Iw (snd aw)) (fun aw => Iw (snd aw))).
  2:{ apply (G (a, w)). split; [split; auto|auto]. }
  unfold finalize_array. eapply hx_bind with (Q := fun _ aw => Ja n q aw /\ (a_toflush (fst aw) = 0 \/ q * per < N)).
  { apply hx_mod. intros b v Z. exact Z. }
  intros _. eapply hx_bind with (Q := fun _ => moved n q).
  { eapply hx_catch with (R1 := moved n q); [|auto|].
    - eapply hx_bind; [apply flush_spec; auto|]. intros ?. apply hx_ret. tauto.
    - intros e. apply hx_ret. auto. }
  intros ok. eapply hx_weak with (P := moved n q) (Q := fun _ => moved n q) (R := moved n q); [|intros s Z; exact Z|intros v s; apply D|exact D].
  destruct ok; [|apply hx_ret; auto]. eapply hx_bind; [apply hx_moved with (Q := any); intros q'; apply a_on_meta_slot, o_finalize|]. intros ok2.
  destruct ok2; [|apply hx_ret; auto]. apply hx_moved with (Q := any). intros q'. eapply pres_bind; [apply a_getA|]. intros b Hb. eapply pres_bind with (P := any).
  - apply pres_miter. intros s Hs. destruct Hb as (Hb & _). rewrite Forall_forall in Hb. specialize (Hb s Hs). destruct s as [s|]; [|st]. apply a_onWd, p_destroy. exact Hb.
  - intros _ _. eapply pres_bind with (P := any); [|intros ? _; st]. apply a_modA. intros c (_ & Z). split; [constructor|exact Z].
Qed.
Lemma fresh_grown a : make_writer v3 c0 = Ok a -> grown a /\ tight a /\ a_frames a = 0.
Proof.
  assert (G : forall b, a_cfg b = c0 -> a_v3 b = v3 -> a_frames b = 0 -> a_append b = 0 -> a_toflush b = 0 -> a_sinks b = [] -> a_meta b = None -> grown b /\ tight b /\ a_frames b = 0).
  { intros b H1 H2 H3 H4 H5 H6 H7. split; [|split; [intros K; contradiction|exact H3]]. split; rewrite ?H3, ?H4; try lia. split; [rewrite H6; constructor|]. split; [rewrite H7; exact I|]. auto. }
  intros H. unfold make_writer in H. destruct v3 eqn:V.
  - destruct (number_of_shards (c_dims c0)); try discriminate. injection H as <-. apply G; auto.
  - injection H as <-. apply G; auto.
Qed.
End Wr.
