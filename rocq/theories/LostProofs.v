(** Zarr V3 on S3: a shard of a row that is not full is never completed by its array. *)
Require Import ZArith List Bool String Ascii Lia.
Require Import Verif.Base Verif.Spec Verif.Dim Verif.Limits Verif.Radix Verif.PathProofs Verif.DimProofs Verif.ShardProofs Verif.Json Verif.World Verif.Writer Verif.LayoutProofs Verif.FrameProofs Verif.GridProofs Verif.OnceSpec Verif.OnceProofs.
Import ListNotations.
Open Scope string_scope. Open Scope list_scope. Open Scope Z_scope.

Lemma hx_and {S A} (P P' : S -> Prop) (m : M S A) Q Q' R R' : hx P m Q R -> hx P' m Q' R' -> hx (fun s => P s /\ P' s) m (fun v s => Q v s /\ Q' v s) (fun s => R s /\ R' s).
Proof. intros H H' s [X X']. specialize (H s X). specialize (H' s X'). destruct (m s) as [s' [v|e| |]]; auto. Qed.

Section Lost.
Variables (E : env) (b kd : string) (bpp : Z) (d0 : dim) (mids : list dim) (dy dx : dim) (c0 : config) (q : Z) (cc : list Z).
Let ds := d0 :: mids ++ [dy; dx].
Hypothesis Hf : fits bpp d0 mids dy dx.
Hypothesis Hsh : fits_shards d0 mids dy dx.
Hypothesis Hds : c_dims c0 = ds.
Hypothesis Hb : c_bucket c0 = Some b.
Hypothesis Hkd : kd = join_path (c_root c0) (data_comps true (c_level c0) q ++ map dec cc).
Hypothesis Hcc : in_bounds (map (np true) (mids ++ [dy; dx])) cc.
Notation per := (per true d0 mids).
Notation hsum := (hsum b kd).
Lemma per_p : 0 < per.
Proof. apply (per_pos true bpp d0 mids dy dx Hf (fun _ => Hsh)). Qed.
Definition live (a : writer) : Prop := a_append a <= q /\ (a_append a = q -> a_sinks a <> [] -> hsum (a_sinks a) = 1).
Lemma live_may mt a : live a -> 1 + h_slot b kd (a_meta a) <= may b kd (Some q) mt a.
Proof.
  intros [L1 L2]. unfold may. pose proof (hsum_nonneg b kd (a_sinks a)). assert (0 <= futm mt a) by (unfold futm; destruct (a_meta a), mt; lia).
  assert (1 <= hsum (a_sinks a) + futq (Some q) (nextq a)); [|lia]. unfold futq, nextq. destruct (a_sinks a) eqn:S0.
  - rewrite (proj2 (Z.leb_le _ _) L1). lia.
  - destruct (Z.eq_dec (a_append a) q) as [Hq|Hq]; [rewrite (L2 Hq) by discriminate; destruct (_ <=? _); lia|]. rewrite (proj2 (Z.leb_le _ _)) by lia. lia.
Qed.
Lemma hsum_same : forall l i o, h_slot b kd o = h_slot b kd (nth i l None) -> hsum (upd l i o) = hsum l.
Proof. induction l as [|x l IH]; intros [|i] o H; try reflexivity; cbn [nth] in H; [cbn in *; lia|]. change (upd (x :: l) (S i) o) with (x :: upd l i o). cbn [OnceProofs.hsum fold_right]. change (fold_right _ _ (upd l i o)) with (hsum (upd l i o)). rewrite (IH i o H). reflexivity. Qed.
Lemma write_slot off d s w : h_sink b kd (fst (fst (sink_write E off d (s, w)))) = h_sink b kd s.
Proof.
  unfold sink_write. cbn [fst]. destruct s as [f|s].
  - unfold runF. cbn [snd]. destruct (file_write E f off d w). reflexivity.
  - unfold runS. cbn [snd fst]. destruct (s_write E b kd (cnt b kd w) (s_bucket s) (s_key s) off d (s, w)) as [[_ [B C]] _]; [split; [reflexivity|split; reflexivity]|]. destruct (s3_write E off d (s, w)) as [[s' w'] r]. cbn in *. rewrite B, C. reflexivity.
Qed.
Section Fr.
Variables f g : Z.
(** [f] frames, and rows up to the one with frame [g] *)
Definition lv (a : writer) : Prop := bw true c0 a /\ a_frames a = f /\ a_append a * per <= g /\ (f < (q + 1) * per -> live a).
Definition Lv (aw : AW) : Prop := lv (fst aw).
Notation pl := (pres Lv).
Lemma lv_same a a' : a_cfg a' = a_cfg a -> a_v3 a' = a_v3 a -> a_frames a' = a_frames a -> a_append a' = a_append a -> a_sinks a' = a_sinks a -> lv a -> lv a'.
Proof. intros H1 H2 H3 H4 H5. unfold lv, bw, live. rewrite H1, H2, H3, H4, H5. auto. Qed.
Lemma l_onWd {A} (m : M world A) : pl any (onWd m).
Proof. intros [a w] X. unfold onWd. cbn [fst snd]. destruct (m w). split; [exact X|intros; exact I]. Qed.
Lemma l_getA : pl lv getA.
Proof. intros [a w] X. split; [exact X|]. intros v H. injection H as <-. exact X. Qed.
Lemma l_modA h : (forall a, lv a -> lv (h a)) -> pl any (modA h).
Proof. intros H [a w] X. split; [apply H; exact X|intros; exact I]. Qed.
Lemma l_write i off d : pl any (on_sink i (sink_write E off d)).
Proof.
  intros [a w] X. unfold on_sink. destruct (nth i (a_sinks a) None) as [s|] eqn:N0; [|split; [exact X|discriminate]].
  pose proof (write_slot off d s w) as W. destruct (sink_write E off d (s, w)) as [[s' w'] r]. cbn [fst] in W. split; [|intros; exact I]. destruct X as (X1 & X2 & X3 & X4). split; [exact X1|split; [exact X2|split; [exact X3|]]].
  intros Hfr. destruct (X4 Hfr) as [L1 L2]. split; [exact L1|]. cbn [fst a_sinks set_sinks a_append] in *. intros Hq Hn. rewrite hsum_same; [apply L2; [exact Hq|intros Z0; apply Hn, upd_nil; exact Z0]|]. rewrite N0. exact W.
Qed.
Lemma l_on_meta {A} (m : M KW A) : pl any (on_meta m).
Proof. intros [a w] X. unfold on_meta. destruct (a_meta a); [|split; [exact X|discriminate]]. destruct (m _) as [[s' w'] r]. split; [|intros; exact I]. revert X. apply lv_same; reflexivity. Qed.
Ltac st := first [apply pres_ret; exact I | apply pres_throw | apply pres_ub | apply pres_hang | apply pres_expect; exact I | apply pres_lift; intros; exact I | apply l_onWd | apply l_write | apply l_on_meta].
Ltac ag := eapply pres_bind; [apply l_getA|intros ? ?].
Ltac bd := eapply pres_bind with (P := any); [|intros ? _].
Ltac a1 := first [apply l_modA; intros ? X; revert X; apply lv_same; reflexivity | st].
Lemma l_compress : pl any (compress_buffers E).
Proof. unfold compress_buffers. ag. destruct (c_comp (a_cfg a)) as [pr|]; [|st]. bd; [st|]. apply pres_miter. intros i _. ag. destruct (e_compress E pr a0 (nth i (a_bufs a1) [])); [bd; a1|a1]. Qed.
Lemma l_write_meta : pl any (write_array_metadata E).
Proof.
  unfold write_array_metadata. eapply pres_bind with (P := any); [|intros ok _].
  - unfold make_metadata_sink. ag. destruct (a_meta a) as [s|]; [st|]. bd; [st|]. destruct a0; [bd; [a1|st]|st].
  - destruct ok; [|st]. ag. cbv zeta. destruct (a_v3 a).
    + bd; [st|]. destruct (dtype_v3 _); st.
    + destruct (dtype_v2 _); [|st]. bd; st.
Qed.
Lemma in_occ base : kd = path_of_coords base cc -> base <> "" -> occ b kd b (grid_paths base (map (np true) (mids ++ [dy; dx]))) = 1.
Proof.
  intros Hk Hbs. assert (P1 : allpos (map (np true) (mids ++ [dy; dx]))).
  { apply Forall_map, Forall_forall. intros d Hd. unfold np. pose proof (proj1 (Forall_forall _ _) (fit_inner _ _ _ _ _ Hf) d Hd) as I0. pose proof (proj1 (Forall_forall _ _) (fit_sinner _ _ _ _ Hsh) d Hd) as S1. apply nsh_pos; auto. }
  unfold occ. rewrite String.eqb_refl. pose proof (proj1 (NoDup_count_occ string_dec _) (grid_paths_nodup base _ P1) kd) as C.
  assert (K : In kd (grid_paths base (map (np true) (mids ++ [dy; dx])))) by (unfold grid_paths; rewrite Hk; apply in_map; apply in_grid; auto). apply (count_occ_In string_dec) in K. lia.
Qed.
Lemma l_make_data : pl any (make_data_sinks E).
Proof.
  intros [a w] X. unfold make_data_sinks. unfold bind at 1. cbn [getA fst snd]. unfold Lv in X. cbn [fst] in X. assert (X' := X). destruct X' as ((C1 & C2 & C3) & C4 & C5 & C6). rewrite C1, Hb.
  assert (R : data_root a = join_path (c_root c0) (data_comps true (c_level c0) (a_append a))) by (rewrite data_root_join, C1, C2; reflexivity).
  assert (Rn : data_root a <> "").
  { unfold data_root. clear. intros H. destruct (a_v3 a); apply (f_equal String.length) in H; rewrite !slength_app in H; cbn [String.length] in H; lia. }
  assert (Z0 : pres (fun _ : world => True) (fun o => match o with Some l => a_append a = q -> l <> [] -> hsum l = 1 | None => True end) (make_data_sinks_s3 E b (data_root a) (c_dims c0) (parts_along a))).
  { unfold make_data_sinks_s3. eapply pres_bind with (P := any); [intros w1 _; split; [exact I|intros; exact I]|intros ? _]. rewrite Hds.
    eapply pres_bind with (P := fun l => l = grid_paths (data_root a) (map (np true) (mids ++ [dy; dx]))).
    - intros w1 _. split; [exact I|]. intros v Hv. pose proof (p_paths E true bpp d0 mids dy dx Hf (fun _ => Hsh) (fun _ => True) (data_root a) a false C2 Rn w1) as P. destruct P as [_ P]; [split; [|exact I]; apply Forall_forall; intros e _; destruct e; exact I|]. exact (P v Hv).
    - intros l ->. destruct (b =? "")%string; [apply pres_ret; exact I|]. eapply pres_bind with (P := fun s => hsum s = 0 + occ b kd b (grid_paths (data_root a) (map (np true) (mids ++ [dy; dx])))).
      + intros w1 _. split; [exact I|]. intros v Hv. destruct (q_s3_sinks b kd (cnt b kd w1) b (grid_paths (data_root a) (map (np true) (mids ++ [dy; dx]))) [] w1 eq_refl) as [_ P]. exact (P v Hv).
      + intros s Hs. apply pres_ret. intros Hq _. rewrite Hs, in_occ; [reflexivity| |exact Rn]. rewrite Hkd, R, Hq. unfold path_of_coords. apply join_path_app. }
  revert Z0. match goal with |- context [onWd ?m] => generalize m end. intros mm Z0. unfold bind, onWd. cbn [fst snd]. destruct (Z0 w I) as [_ Z1]. destruct (mm w) as [w1 [[l|]|e| |]]; cbn [fst snd] in *; try (split; [exact X|intros; first [exact I|discriminate]]).
  specialize (Z1 _ eq_refl). cbn beta iota in Z1. split; [|intros; exact I].
  split; [exact (proj1 X)|split; [exact C4|split; [exact C5|]]]. intros Hfr. destruct (C6 Hfr) as [L1 _]. split; [exact L1|exact Z1].
Qed.
Lemma l_v3_chunks s : forall cs x, pl any (v3_chunks E s cs x).
Proof.
  induction cs as [|ch cs IH]; intros x; cbn [v3_chunks]; [st|]. eapply pres_bind with (P := any); [|intros r _; destruct r as [[] [m|]]; try st; apply IH].
  unfold v3_chunk. ag. cbv zeta. eapply pres_bind with (P := any); [apply pres_catch; [|intros; st]; bd; st|intros r _].
  destruct r as [[] [m|]]; [st| |st|st]. apply pres_catch; [|intros; st]. repeat (bd; [a1|]). st.
Qed.
Lemma l_flush_impl : pl any (flush_impl E).
Proof.
  unfold flush_impl. ag. assert (V : a_v3 a = true) by apply H. rewrite V.
  unfold flush_impl_v3. ag. eapply pres_bind with (P := any); [destruct (a_sinks a0); [apply l_make_data|st]|intros ok _]. destruct ok; [|st]. ag. cbv zeta. bd; [st|]. bd; [st|]. bd; [st|].
  bd; [destruct (a_final a1); st|]. bd; [|bd; [|st]; match goal with |- pres _ _ (if ?b then _ else _) => destruct b end; a1].
  apply pres_miter. intros s _. unfold v3_job. eapply pres_bind with (P := any); [apply l_v3_chunks|intros r _]. eapply pres_bind with (P := any); [destruct r as [[] [m|]]; [st| |st|st]; match goal with |- pres _ _ (if ?b then _ else _) => destruct b end; [|st]|intros r2 _; st].
  unfold v3_table. ag. apply pres_catch; [|intros; st]. bd; st.
Qed.
(** while closing the shards only the row number and the number of frames matter *)
Definition rw (aw : AW) : Prop := bw true c0 (fst aw) /\ a_frames (fst aw) = f /\ a_append (fst aw) * per <= g.
Lemma r_close : pres rw any (close_sinks E).
Proof.
  unfold close_sinks. eapply pres_bind with (P := any); [intros aw X; split; [exact X|intros; exact I]|intros a _]. bd.
  - apply pres_miter. intros i _. bd; [|st]. intros [a' w] X. unfold on_slot. destruct (finalize_sink E _) as [[s' w'] r]. split; [exact X|intros; exact I].
  - intros [a' w] X. split; [exact X|intros; exact I].
Qed.
End Fr.
Lemma roll3 a r : a_cfg a = c0 -> a_v3 a = true -> should_rollover a = Ok r -> r = true -> a_frames a mod per = 0.
Proof.
  intros Hc Hv. unfold should_rollover, GridProofs.per. rewrite Hv, Hc, Hds. assert (Ef : final_dim ds = d0) by apply final_dim_eq. rewrite Ef. cbv zeta.
  pose proof (fit_c0 _ _ _ _ _ Hf) as C0. pose proof (fit_spp _ _ _ _ Hsh) as C1. pose proof (fit_s0 _ _ _ _ Hsh) as C2. pose proof (fit_speriod _ _ _ _ Hsh) as C3.
  unfold ds. rewrite u32_id by (split; [apply Z.mul_nonneg_nonneg; lia|exact C1]). rewrite (fbf bpp d0 mids dy dx Hf); [|apply Z.mul_nonneg_nonneg; lia|lia].
  replace (d_chunk d0 * prodZ (map d_array mids) * d_shard d0) with (d_chunk d0 * d_shard d0 * prodZ (map d_array mids)) by ring.
  destruct (0 <? _); [|discriminate]. intros X ->. injection X as X. apply Z.eqb_eq. exact X.
Qed.
Lemma lv_up f g g' a : lv f g a -> g <= g' -> lv f g' a.
Proof. intros (X1 & X2 & X3 & X4) H. split; [exact X1|split; [exact X2|split; [lia|exact X4]]]. Qed.
Lemma hx_l {A} f g (m : M AW A) : pres (Lv f g) any m -> hx (Lv f g) m (fun _ => Lv f g) (Lv f g).
Proof. intros H. eapply hx_weak; [apply hx_pres; exact H|auto|intros v s [X _]; exact X|auto]. Qed.
(** a new row only after the last frame of a row *)
Lemma next_row f g a : 0 <= a_append a -> a_append a * per <= g -> g < f -> f mod per = 0 -> (a_append a + 1) * per <= f /\ (f < (q + 1) * per -> a_append a < q).
Proof.
  intros H0 H1 H2 H3. pose proof per_p as P. assert (X : f = per * (f / per)) by (rewrite <- (Z_div_exact_full_2 f per); lia).
  assert (a_append a < f / per) by nia. split; [nia|]. intros Hq. assert (f / per < q + 1) by nia. lia.
Qed.
Lemma roll_lv f g : g < f -> f < 2 ^ 32 -> f mod per = 0 -> hx (Lv f g) (rollover E) (fun _ => Lv f f) (Lv f f).
Proof.
  intros Hg H32 Hm. unfold rollover.
  assert (In1 : forall aw, rw f g aw -> Lv f f aw).
  { intros [a w] (R1 & R2 & R3). cbn [fst] in *. destruct (next_row f g a (proj2 (proj2 R1)) R3 Hg Hm) as [N1 N2]. split; [exact R1|split; [exact R2|split; [cbn [fst]; lia|]]]. intros Hq. specialize (N2 Hq). split; cbn [fst] in *; [lia|intros; lia]. }
  eapply hx_bind with (Q := fun _ aw => rw f g aw /\ a_sinks (fst aw) = []).
  - assert (C : hx (rw f g) (close_sinks E) (fun _ => rw f g) (rw f g)) by (eapply hx_weak; [apply hx_pres, (r_close f g)|auto|intros v s [X _]; exact X|auto]).
    intros aw X. assert (X' : rw f g aw) by (destruct X as (X1 & X2 & X3 & _); split; auto). specialize (C aw X'). revert C.
    unfold close_sinks, bind, getA, modA. destruct aw as [a w]. cbn [fst snd]. match goal with |- context [miter ?h ?l (a, w)] => destruct (miter h l (a, w)) as [[a' w'] [v|e| |]] end; intros C; try (apply In1; exact C). split; [exact C|reflexivity].
  - intros _. apply hx_mod. intros a w [(R1 & R2 & R3) S0]. cbn [fst] in *. destruct (next_row f g a (proj2 (proj2 R1)) R3 Hg Hm) as [N1 N2]. destruct R1 as (B1 & B2 & B3). pose proof per_p.
    assert (U : u32 (a_append a + 1) = a_append a + 1) by (apply u32_id; nia). split; [split; [exact B1|split; [exact B2|cbn; rewrite U; lia]]|]. cbn [fst a_frames a_append set_append]. rewrite U. split; [exact R2|split; [exact N1|]].
    intros Hq. specialize (N2 Hq). split; cbn [a_append set_append a_sinks]; rewrite ?U; [lia|]. intros _ Hn. contradiction.
Qed.
Lemma flush_lv f g : g < f -> f < 2 ^ 32 -> hx (Lv f g) (flush E) (fun _ => Lv f f) (Lv f f).
Proof.
  intros Hg H32. assert (Up : forall aw, Lv f g aw -> Lv f f aw) by (intros aw X; eapply lv_up; [exact X|lia]).
  assert (W : forall A (m : M AW A), pres (Lv f g) any m -> hx (Lv f g) m (fun _ => Lv f g) (Lv f f)) by (intros A m H; eapply hx_weak; [apply hx_l; exact H|auto|auto|exact Up]).
  unfold flush. apply hx_getA. intros a. eapply hx_pre with (P := Lv f g); [|tauto]. destruct (a_toflush a =? 0); [apply hx_ret; exact Up|].
  eapply hx_bind with (Q := fun _ => Lv f g); [apply W, l_compress|intros _]. eapply hx_bind with (Q := fun _ => Lv f g); [apply W, l_flush_impl|intros ok].
  eapply hx_bind with (Q := fun _ => Lv f g); [apply hx_expect; auto|intros _]. apply hx_getA. intros a1.
  eapply hx_bind with (Q := fun roll aw => Lv f g aw /\ (roll = true -> f mod per = 0)).
  { apply hx_lift; [|intros s [X _]; auto]. intros [a' w] v Hv [X Y]. cbn [fst] in Y. subst a'. split; [exact X|]. intros Hr. destruct X as ((B1 & B2 & _) & <- & _). eapply roll3; eauto. }
  intros roll. eapply hx_bind with (Q := fun _ => Lv f f).
  { destruct roll; [|apply hx_ret; intros s [X _]; auto]. intros s [X Hm]. exact (roll_lv f g Hg H32 (Hm eq_refl) s X). }
  intros _. apply hx_getA. intros a2. eapply hx_bind with (Q := fun _ => Lv f f).
  { eapply hx_pre with (P := Lv f f); [|tauto]. destruct (roll || a_final a2); [|apply hx_ret; auto]. eapply hx_bind with (Q := fun _ => Lv f f); [apply hx_l, l_write_meta|intros ok2; apply hx_expect; auto]. }
  intros _. apply hx_getA. intros a3. eapply hx_bind with (Q := fun d' aw => Lv f f aw /\ exists l, d' = set_bufs (fst aw) l).
  { apply hx_lift; [|intros s [X _]; exact X]. intros s v Hv [X Y]. split; auto. rewrite Y. eapply mk_bufs; eauto. }
  intros d'. apply hx_mod. intros a' w (X & l & ->). revert X. apply lv_same; reflexivity.
Qed.
(** *** what is known of the array between two frames *)
Definition keeps (a : writer) : Prop := lv (a_frames a) (a_frames a) a.
Lemma lv_keeps f aw : Lv f f aw -> keeps (fst aw).
Proof. intros X. assert (F : a_frames (fst aw) = f) by apply X. unfold keeps. rewrite F. exact X. Qed.
Lemma frame_keeps f data : 0 <= f -> f + 1 < 2 ^ 32 -> hx (Lv f f) (write_frame E data) (fun _ aw => keeps (fst aw)) (fun aw => keeps (fst aw)).
Proof.
  intros H0 H32. assert (K0 : forall aw, Lv f f aw -> keeps (fst aw)) by (intros aw; apply lv_keeps).
  unfold write_frame. apply hx_getA. intros a. eapply hx_bind with (Q := fun _ aw => Lv f f aw /\ fst aw = a); [apply hx_lift; [auto|intros s [X _]; auto]|]. intros nf. destruct (nf =? zlen data); cbn [negb]; [|apply hx_ret; intros s [X _]; auto].
  eapply hx_bind with (Q := fun _ => Lv f f).
  { destruct (a_bufs a); [|apply hx_ret; tauto]. eapply hx_bind with (Q := fun d aw => Lv f f aw /\ exists l, d = set_bufs (fst aw) l).
    - apply hx_lift; [|intros s [X _]; auto]. intros [a' w] v Hv [X Y]. cbn in Y. subst a'. split; auto. eapply mk_bufs; eauto.
    - intros d. apply hx_mod. intros a' w (X & l & ->). revert X. apply lv_same; reflexivity. }
  intros _. apply hx_getA. intros a1. eapply hx_bind with (Q := fun _ => Lv f f); [apply hx_lift; [tauto|intros s [X _]; auto]|]. intros [bufs written].
  eapply hx_bind with (Q := fun _ => Lv f f); [apply hx_mod; intros a' w X; revert X; apply lv_same; reflexivity|].
  intros _. eapply hx_bind with (Q := fun _ => Lv f f); [apply hx_expect; auto|intros _]. eapply hx_bind with (Q := fun _ => Lv (f + 1) f).
  { apply hx_mod. intros a' w (X1 & X2 & X3 & X4). cbn [fst] in *. split; [exact X1|]. cbn [fst a_frames set_frames a_append set_toflush]. rewrite X2, u32_id by lia. split; [reflexivity|split; [exact X3|]]. intros Hq. apply X4. lia. }
  intros _. apply hx_getA. intros a2. eapply hx_bind with (Q := fun _ => Lv (f + 1) f).
  { assert (Up : forall aw, Lv (f + 1) f aw -> keeps (fst aw)) by (intros aw X; eapply lv_keeps; eapply lv_up; [exact X|lia]). apply hx_lift; [tauto|intros s [X _]; auto]. }
  intros sf. assert (Up : forall aw, Lv (f + 1) f aw -> keeps (fst aw)) by (intros aw X; eapply lv_keeps; eapply lv_up; [exact X|lia]).
  eapply hx_bind with (Q := fun _ aw => keeps (fst aw)); [|intros _; apply hx_ret; auto].
  destruct sf; [|apply hx_ret; exact Up]. eapply hx_weak; [apply (flush_lv (f + 1) f); lia|intros s X; exact X|intros v s X; exact (lv_keeps (f + 1) s X)|intros s X; eapply lv_keeps; exact X].
Qed.
(** *** closing the array: the shard stays away *)
Section Fin.
Variable mt : bool.
Hypothesis sound_data : forall q' cc', 0 <= q' -> Forall (fun i => 0 <= i) cc' -> List.length cc' = (List.length (firstn (List.length (c_dims c0) - 2) (tl (c_dims c0))) + 1)%nat -> c_bucket c0 = Some b -> kd = join_path (c_root c0) (data_comps true (c_level c0) q' ++ map dec cc') -> Some q = Some q'.
Hypothesis sound_meta : c_bucket c0 = Some b -> kd = join_path (c_root c0) (meta_comps true (c_level c0)) -> mt = true.
Lemma fin_lost f m : f < (q + 1) * per -> f < 2 ^ 32 -> m + 1 < 2 ^ 32 ->
  hx (fun aw => Jm b kd true c0 (Some q) mt 1 m aw /\ Lv f f aw /\ (a_toflush (fst aw) = 0 \/ a_append (fst aw) * per < f)) (finalize_array E) (fun _ aw => cnt b kd (snd aw) <= 0) (fun aw => cnt b kd (snd aw) <= 0).
Proof.
  intros Hq H32 Hm.
  assert (D : forall aw, Jm b kd true c0 (Some q) mt 1 (m + 1) aw /\ Lv f f aw -> cnt b kd (snd aw) + h_slot b kd (a_meta (fst aw)) <= 0).
  { intros aw ((q' & [J1 _] & _) & (_ & _ & _ & L1)). pose proof (live_may mt (fst aw) (L1 Hq)). lia. }
  assert (D0 : forall aw, Jm b kd true c0 (Some q) mt 1 (m + 1) aw /\ Lv f f aw -> cnt b kd (snd aw) <= 0) by (intros aw X; pose proof (D aw X); pose proof (h_slot_nonneg b kd (a_meta (fst aw))); lia).
  unfold finalize_array. eapply hx_bind with (Q := fun _ aw => Jm b kd true c0 (Some q) mt 1 m aw /\ Lv f f aw /\ (a_toflush (fst aw) = 0 \/ a_append (fst aw) * per < f)).
  { apply hx_mod. intros a' w ((q' & X & Hq') & Y & Z0). split; [exists q'; split; [|exact Hq']; eapply Jr_eq; [..|exact X]; reflexivity|]. split; [revert Y; apply lv_same; reflexivity|exact Z0]. }
  intros _. eapply hx_bind with (Q := fun _ aw => Jm b kd true c0 (Some q) mt 1 (m + 1) aw /\ Lv f f aw).
  { eapply hx_catch with (R1 := fun aw => Jm b kd true c0 (Some q) mt 1 (m + 1) aw /\ Lv f f aw); [|exact D0|intros e; apply hx_ret; auto].
    eapply hx_bind with (Q := fun _ aw => Jm b kd true c0 (Some q) mt 1 (m + 1) aw /\ Lv f f aw); [|intros _; apply hx_ret; auto].
    intros aw (X & Y & Z0).
    assert (G : hx (Lv f f) (flush E) (fun _ => Lv f f) (Lv f f) -> match flush E aw with (s', Ok _) => Jm b kd true c0 (Some q) mt 1 (m + 1) s' /\ Lv f f s' | (s', _) => Jm b kd true c0 (Some q) mt 1 (m + 1) s' /\ Lv f f s' end) .
    { intros H. exact (hx_and _ _ _ _ _ _ _ (OnceProofs.flush_spec E b kd true c0 (Some q) mt sound_data sound_meta 1 m Hm) H aw (conj X Y)). }
    destruct Z0 as [Z0|Z0].
    - unfold flush, bind, getA. rewrite Z0, Z.eqb_refl. split; [eapply Jm_up; [exact X|lia]|exact Y].
    - assert (Y' : Lv f (f - 1) aw) by (destruct Y as (Y1 & Y2 & Y3 & Y4); split; [exact Y1|split; [exact Y2|split; [lia|exact Y4]]]).
      exact (hx_and _ _ _ _ _ _ _ (OnceProofs.flush_spec E b kd true c0 (Some q) mt sound_data sound_meta 1 m Hm) (flush_lv f (f - 1) ltac:(lia) H32) aw (conj X Y')). }
  intros ok. destruct ok; [|apply hx_ret; exact D0].
  eapply hx_bind with (Q := fun _ aw => cnt b kd (snd aw) <= 0).
  { intros [a w] X. specialize (D _ X). cbn [fst snd] in *. unfold on_meta_slot. destruct (o_finalize E b kd 0 (a_meta a, w) D) as [O _]. destruct (finalize_sink E (a_meta a, w)) as [[o w'] r]. unfold Ow in O. cbn [fst snd] in *.
    assert (cnt b kd w' <= 0); [|destruct r; auto]. pose proof (h_slot_nonneg b kd o). lia. }
  intros ok2. destruct ok2; [|apply hx_ret; auto]. eapply hx_weak; [eapply (hx_pres (fun aw : AW => cnt b kd (snd aw) <= 0) any)| | |]; [|auto|intros v s [X _]; exact X|auto].
  eapply pres_bind with (P := any); [intros aw X; split; [exact X|intros; exact I]|intros a _]. eapply pres_bind with (P := any).
  - apply pres_miter. intros s _. destruct s as [s|]; [|apply pres_ret; exact I]. intros [a' w] X. cbn [fst snd] in X. unfold onWd. cbn [fst snd]. destruct (q_destroy b kd (cnt b kd w) s w eq_refl) as [Q _]. destruct (sink_destroy s w) as [w' r]. unfold Qw in Q. cbn [fst snd] in *. split; [lia|intros; exact I].
  - intros _ _. eapply pres_bind with (P := any); [intros aw X; split; [exact X|intros; exact I]|intros _ _; apply pres_ret; exact I].
Qed.
End Fin.
End Lost.
