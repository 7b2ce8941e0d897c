Require Import ZArith List Bool String Ascii Lia.
Require Import Verif.Base Verif.Spec Verif.Dim Verif.Limits Verif.Radix.
Import ListNotations.
Open Scope Z_scope.

Section Dims.
Variables (bpp dt : Z) (d0 : dim) (mids : list dim) (dy dx : dim).
Let ds := d0 :: mids ++ [dy; dx].

Lemma mid_dims_eq : mid_dims ds = mids.
Proof.
  unfold mid_dims, ds. simpl. rewrite app_length; simpl.
  replace (List.length mids + 2 - 2)%nat with (List.length mids) by lia.
  rewrite firstn_app, firstn_all, Nat.sub_diag. simpl. apply app_nil_r.
Qed.
Lemma ds_length : List.length ds = (List.length mids + 3)%nat.
Proof. unfold ds; simpl; rewrite app_length; simpl; lia. Qed.
Lemma final_dim_eq : final_dim ds = d0.
Proof. reflexivity. Qed.
Lemma width_dim_eq : width_dim ds = dx.
Proof.
  unfold width_dim, at_dim. rewrite ds_length. unfold ds.
  replace (List.length mids + 3 - 1)%nat with (S (List.length mids + 1))%nat by lia. simpl.
  rewrite app_nth2 by lia. replace (List.length mids + 1 - List.length mids)%nat with 1%nat by lia. reflexivity.
Qed.
Lemma height_dim_eq : height_dim ds = dy.
Proof.
  unfold height_dim, at_dim. rewrite ds_length. unfold ds.
  replace (List.length mids + 3 - 2)%nat with (S (List.length mids + 0))%nat by lia. simpl.
  rewrite app_nth2 by lia. replace (List.length mids + 0 - List.length mids)%nat with 0%nat by lia. reflexivity.
Qed.
End Dims.

Lemma nch_pos d : inner_ok d -> 0 < nch d.
Proof. intros (A & C & _). apply ceil_div_pos; auto. Qed.

Lemma chunks_along_ok d : inner_ok d -> chunks_along_dimension d = Ok (nch d).
Proof.
  intros (A & C & L). unfold chunks_along_dimension, nch, ceil_div.
  rewrite (proj2 (Z.ltb_lt _ _)) by lia. rewrite u32_id by lia. auto.
Qed.
Lemma nchunks_of_ok d : inner_ok d -> nchunks_of d = nch d.
Proof. intros; unfold nchunks_of; rewrite chunks_along_ok; auto. Qed.
Lemma nchunks32_ok d : inner_ok d -> nchunks32 d = nch d.
Proof. intros (A & C & L). unfold nchunks32, nch, ceil_div. rewrite u32_id by lia. auto. Qed.

Lemma inner_allpos_nch l : Forall inner_ok l -> allpos (map nch l).
Proof. intros H. apply Forall_map. eapply Forall_impl; [|apply H]. intros; apply nch_pos; auto. Qed.
Lemma inner_allpos_arr l : Forall inner_ok l -> allpos (map d_array l).
Proof. intros H. apply Forall_map. eapply Forall_impl; [|apply H]. intros a (?&?&?); auto. Qed.
Lemma inner_allpos_chk l : Forall inner_ok l -> allpos (map d_chunk l).
Proof. intros H. apply Forall_map. eapply Forall_impl; [|apply H]. intros a (?&?&?); auto. Qed.

Lemma strides_hd w f d ds s : strides w f (d :: ds) = s -> exists a, s = a :: strides w f ds.
Proof. intros <-. simpl. eexists; reflexivity. Qed.

Lemma strides_exact w m f g d ds :
  wraps w m -> 1 < m -> Forall (fun d => f d = g d) ds -> allpos (map g ds) -> prodZ (map g ds) < m ->
  strides w f (d :: ds) = sprods (map g (d :: ds)).
Proof.
  intros Hw Hm. revert d; induction ds as [|d' ds IH]; intros d Hf Hp Hlt.
  - reflexivity.
  - inv Hf. simpl map in Hp. apply allpos_cons in Hp as [Hd Hp]. pose proof (prodZ_pos _ Hp).
    assert (prodZ (map g ds) < m). { simpl in Hlt. nia. }
    specialize (IH d' H2 Hp H0).
    change (strides w f (d :: d' :: ds)) with
      (match strides w f (d' :: ds) with [] => 1 | s :: _ => w (s * f (hd dim0 (d' :: ds))) end
         :: strides w f (d' :: ds)).
    rewrite IH. simpl. f_equal. rewrite H1. simpl in Hlt. rewrite Hw; [lia|]. nia.
Qed.

Lemma sprods_app_nth l m i d :
  (i < List.length l)%nat -> nth i (sprods (l ++ m)) d = nth i (sprods l) d * prodZ m.
Proof.
  revert i; induction l; simpl; intros i H; [lia|].
  destruct i; [rewrite prodZ_app; auto|]. apply IHl; lia.
Qed.

(** sums with wraps *)
Lemma ofold_sum_exact {A} (w : Z -> Z) m (g : A -> outcome Z) (x y : A -> Z) l :
  wraps w m -> Forall (fun i => g i = Ok (x i) /\ 0 <= x i /\ 0 <= y i) l ->
  forall a, 0 <= a -> a + sumZ (map (fun i => x i * y i) l) < m ->
  ofold (fun acc i => let? n := g i in Ok (w (acc + w (n * y i)))) l a
  = Ok (a + sumZ (map (fun i => x i * y i) l)).
Proof.
  intros Hw H. induction H as [|i l (Hg & Hx & Hy) H IH]; simpl; intros a Ha Hlt.
  - f_equal; lia.
  - assert (0 <= sumZ (map (fun i => x i * y i) l)).
    { clear -H. induction H; simpl; [lia|]. destruct H as (?&?&?). nia. }
    assert (0 <= x i * y i) by nia.
    rewrite Hg; simpl. rewrite (Hw (x i * y i)) by lia. rewrite Hw by lia.
    rewrite IH by lia. f_equal. lia.
Qed.
Lemma sumZ_app l m : sumZ (l ++ m) = sumZ l + sumZ m.
Proof. induction l; simpl; lia. Qed.
Lemma sumZ_rev l : sumZ (rev l) = sumZ l.
Proof. induction l; simpl; auto. rewrite sumZ_app; simpl; lia. Qed.
Lemma sum_nth_dot (l m : list Z) :
  List.length l = List.length m ->
  sumZ (map (fun i => nth (i - 1) l 0 * nth (i - 1) m 0) (seq 1 (List.length l))) = dot l m.
Proof.
  intros L. replace (map (fun i => nth (i - 1) l 0 * nth (i - 1) m 0) (seq 1 (Datatypes.length l)))
    with (map (fun i => nth i l 0 * nth i m 0) (seq 0 (List.length l))).
  2:{ rewrite <- seq_shift, map_map. apply map_ext. intros; simpl. rewrite Nat.sub_0_r; auto. }
  revert m L; induction l; destruct m; simpl; intros; try lia.
  f_equal. rewrite <- (IHl m) by lia. f_equal. rewrite <- seq_shift, map_map. apply map_ext; auto.
Qed.

(** coordinate i of unravel *)
Lemma nth_unravel sh p i :
  allpos sh -> (i < List.length sh)%nat ->
  nth i (unravel sh (p mod prodZ sh)) 0
  = (p mod prodZ (skipn i sh)) / prodZ (skipn (S i) sh).
Proof.
  revert p i; induction sh as [|a sh IH]; intros p i Hp Hi; [simpl in Hi; lia|].
  apply allpos_cons in Hp as [Ha Hp]. pose proof (prodZ_pos _ Hp) as HP.
  destruct i as [|i].
  - cbn. reflexivity.
  - cbn [skipn nth unravel]. cbn [prodZ]. rewrite mod_mod_mul by lia.
    rewrite IH; auto. simpl in Hi; lia.
Qed.

Section Exact.
Variables (bpp dt : Z) (d0 : dim) (mids : list dim) (dy dx : dim).
Let ds := d0 :: mids ++ [dy; dx].
Hypothesis Hf : fits bpp d0 mids dy dx.
Hypothesis Hbpp : bytes_of_type dt = Ok bpp.

Let A := map d_array mids.
Let C := map d_chunk mids.
Let N := map nch mids.

(** middle coordinates of frame [f] *)
Definition mid_coords (f : Z) : list Z := unravel A (f mod prodZ A).

Lemma inner_mids : Forall inner_ok mids.
Proof. apply fit_inner in Hf. apply Forall_app in Hf; tauto. Qed.
Lemma inner_dy : inner_ok dy.
Proof. apply fit_inner in Hf. apply Forall_app in Hf as [_ H]. inv H; auto. Qed.
Lemma inner_dx : inner_ok dx.
Proof. apply fit_inner in Hf. apply Forall_app in Hf as [_ H]. inv H. inv H3; auto. Qed.
Lemma A_pos : allpos A. Proof. apply inner_allpos_arr, inner_mids. Qed.
Lemma C_pos : allpos C. Proof. apply inner_allpos_chk, inner_mids. Qed.
Lemma N_pos : allpos N. Proof. apply inner_allpos_nch, inner_mids. Qed.
Lemma lenA : List.length A = List.length mids. Proof. apply map_length. Qed.
Lemma lenC : List.length C = List.length mids. Proof. apply map_length. Qed.
Lemma lenN : List.length N = List.length mids. Proof. apply map_length. Qed.
Lemma PA_pos : 0 < prodZ A. Proof. apply prodZ_pos, A_pos. Qed.

Lemma mid_coords_bounds f : in_bounds A (mid_coords f).
Proof. apply unravel_in_bounds; [apply A_pos|]. apply Z.mod_pos_bound, PA_pos. Qed.

Lemma nch_prod_split : prodZ (map nch (mids ++ [dy; dx])) = prodZ N * (nch dy * nch dx).
Proof. rewrite map_app, prodZ_app. simpl. f_equal. lia. Qed.
Lemma chk_prod_split : prodZ (map d_chunk ds) = d_chunk d0 * (prodZ C * (d_chunk dy * d_chunk dx)).
Proof. unfold ds. simpl. rewrite map_app, prodZ_app. simpl. f_equal. f_equal. lia. Qed.

Lemma nch_bound : 0 < prodZ N /\ 0 < nch dy /\ 0 < nch dx /\ prodZ N * (nch dy * nch dx) < 2 ^ 31.
Proof.
  pose proof (fit_chunks _ _ _ _ _ Hf). rewrite nch_prod_split in H.
  pose proof (prodZ_pos _ N_pos). pose proof (nch_pos _ inner_dy). pose proof (nch_pos _ inner_dx). auto.
Qed.

Definition mx (d : dim) : Z := Z.max (d_array d) (d_chunk d).
Let Mx := map mx mids.
Lemma M_pos : allpos Mx.
Proof. apply Forall_map. eapply Forall_impl; [|apply inner_mids]. intros a (?&?&?). unfold mx; lia. Qed.
Lemma M_bound : prodZ Mx < 2 ^ 63.
Proof.
  pose proof (fit_period _ _ _ _ _ Hf). change (map (fun d => Z.max (d_array d) (d_chunk d)) mids) with Mx in H.
  pose proof (fit_c0 _ _ _ _ _ Hf). pose proof (prodZ_pos _ M_pos). nia.
Qed.
Lemma period_bound : d_chunk d0 * prodZ A < 2 ^ 63.
Proof.
  pose proof (fit_period _ _ _ _ _ Hf). change (map (fun d => Z.max (d_array d) (d_chunk d)) mids) with Mx in H.
  pose proof (fit_c0 _ _ _ _ _ Hf).
  assert (prodZ A <= prodZ Mx). { apply prodZ_mono; [apply A_pos|]. unfold A, Mx. clear. induction mids; simpl; constructor; auto. unfold mx; lia. }
  nia.
Qed.
Lemma PA_bound : prodZ A < 2 ^ 63.
Proof. pose proof period_bound. pose proof (fit_c0 _ _ _ _ _ Hf). pose proof PA_pos. nia. Qed.
Lemma PC_bound : prodZ C < 2 ^ 63.
Proof.
  assert (prodZ C <= prodZ Mx). { apply prodZ_mono; [apply C_pos|]. unfold C, Mx. clear. induction mids; simpl; constructor; auto. unfold mx; lia. }
  pose proof M_bound; lia.
Qed.

Lemma prod_skipn_le i l : allpos l -> 0 < prodZ (skipn i l) <= prodZ l.
Proof.
  intros Hp. pose proof (prodZ_pos _ (allpos_skipn i l Hp)).
  rewrite (prodZ_firstn_skipn i l). pose proof (prodZ_ge1 _ (allpos_firstn i l Hp)). nia.
Qed.

Lemma lattice_index_exact f i :
  0 <= f < 2 ^ 32 -> (1 <= i <= List.length mids)%nat ->
  chunk_lattice_index ds f i
  = Ok (nth (i - 1) (zip_with Z.div (mid_coords f) C) 0).
Proof.
  intros Hfr Hi. unfold chunk_lattice_index, ds. rewrite ds_length.
  rewrite (proj2 (Nat.ltb_lt _ _)) by lia.
  destruct i as [|i]; [lia|]. rewrite mid_dims_eq.
  replace (S i - 1)%nat with i by lia.
  assert (Hs : exists d r, skipn i mids = d :: r).
  { destruct (skipn i mids) eqn:E; eauto.
    assert (List.length (skipn i mids) = 0)%nat by (rewrite E; auto). rewrite skipn_length in H. lia. }
  destruct Hs as (d & r & Hs). rewrite Hs.
  assert (Hin : Forall inner_ok (d :: r)).
  { rewrite <- Hs. pose proof inner_mids. rewrite <- (firstn_skipn i mids) in H. apply Forall_app in H; tauto. }
  assert (HAs : map d_array (d :: r) = skipn i A). { unfold A. rewrite skipn_map, Hs; auto. }
  assert (HAs' : map d_array r = skipn (S i) A).
  { unfold A. rewrite skipn_map. f_equal.
    clear -Hs. revert mids Hs. induction i; destruct mids; simpl; intros; try discriminate.
    - inv Hs; auto.
    - specialize (IHi _ Hs). destruct l; auto. }
  assert (HCi : nth i C 0 = d_chunk d).
  { unfold C. rewrite nth_indep with (d' := d_chunk dim0) by (rewrite map_length; lia). rewrite map_nth.
    f_equal. replace i with (i + 0)%nat by lia. rewrite <- nth_skipn, Hs. auto. }
  pose proof (prod_skipn_le i A A_pos) as [Hp1 Hp2].
  pose proof PA_bound as Hb.
  assert (Hmd : fold_left (fun acc d => u64 (acc * d_array d)) (d :: r) 1 = prodZ (skipn i A)).
  { rewrite (fold_mul_exact u64 (2 ^ 64)); auto using wraps_u64; try lia; rewrite HAs; try lia.
    apply allpos_skipn, A_pos. }
  rewrite Hmd. inv Hin. destruct H1 as (Ha & Hc & Hac).
  (* the divisor *)
  set (R := prodZ (skipn (S i) A)).
  assert (HRp : 0 < R) by (apply prodZ_pos, allpos_skipn, A_pos).
  assert (Hdec : prodZ (skipn i A) = d_array d * R).
  { rewrite <- HAs. simpl. rewrite HAs'. auto. }
  assert (Hcb : d_chunk d * R < 2 ^ 64 \/ 2 ^ 64 <= d_chunk d * R) by lia.
  assert (Hru : prodZ (map d_array r) = R) by (rewrite HAs'; auto).
  assert (Hx : 0 <= f mod prodZ (skipn i A) < prodZ (skipn i A)) by (apply Z.mod_pos_bound; lia).
  assert (Hcf : fold_left (fun acc d => u64 (acc * d_array d)) r (u64 (d_chunk d)) = u64 (d_chunk d * R)).
  { clear Hmd Hp1 Hp2 Hdec Hx HAs HAs' Hs HCi HRp Hcb. clearbody R. subst R. clear H2.
    assert (G : forall l a, fold_left (fun acc d => u64 (acc * d_array d)) l (u64 a) = u64 (a * prodZ (map d_array l))).
    { induction l as [|e l IHl]; intros a; simpl.
      - f_equal; lia.
      - replace (u64 (u64 a * d_array e)) with (u64 (a * d_array e)).
        + rewrite IHl. f_equal. lia.
        + unfold u64. rewrite Z.mul_mod_idemp_l; lia. }
    apply G. }
  rewrite Hcf.
  (* nth coordinate *)
  assert (Hn : nth i (zip_with Z.div (mid_coords f) C) 0
               = (f mod prodZ (skipn i A)) / R / d_chunk d).
  { rewrite nth_zip_with with (da := 0) (db := 0).
    - rewrite HCi. f_equal. unfold mid_coords. rewrite nth_unravel; auto using A_pos. rewrite lenA; lia.
    - unfold mid_coords. rewrite unravel_length, lenA. lia.
    - rewrite lenC; lia. }
  rewrite Hn.
  destruct (prodZ (skipn i A) =? 0) eqn:E0; [apply Z.eqb_eq in E0; lia|]. clear E0.
  assert (Hprod : d_chunk d * R < 2 ^ 63).
  { pose proof M_bound. pose proof (prod_skipn_le i _ M_pos).
    unfold Mx in *. rewrite skipn_map, Hs in H0. simpl in H0.
    assert (R <= prodZ (map mx r)).
    { rewrite <- Hru. apply prodZ_mono. rewrite HAs'; apply allpos_skipn, A_pos.
      clear. induction r; simpl; constructor; auto. unfold mx; lia. }
    assert (d_chunk d * R <= mx d * prodZ (map mx r)).
    { apply Z.mul_le_mono_nonneg; unfold mx in *; lia. }
    lia. }
  rewrite u64_id by nia.
  destruct (d_chunk d * R =? 0) eqn:E0; [apply Z.eqb_eq in E0; nia|].
  rewrite Z.div_div by lia. rewrite (Z.mul_comm R).
  rewrite u32_id; auto.
  assert (0 <= f mod prodZ (skipn i A) / (d_chunk d * R)) by (apply Z.div_pos; nia).
  assert (f mod prodZ (skipn i A) <= f) by (apply Z.mod_le; lia).
  assert (f mod prodZ (skipn i A) / (d_chunk d * R) <= f mod prodZ (skipn i A)).
  { apply Z.div_le_upper_bound; nia. }
  lia.
Qed.

Lemma mid_chunk_bounds f : in_bounds N (zip_with Z.div (mid_coords f) C).
Proof.
  assert (E : N = zip_with ceil_div A C).
  { unfold N, A, C. clear. induction mids; simpl; auto. f_equal; auto. }
  rewrite E. apply zip_div_bounds; [apply C_pos|rewrite lenA, lenC; auto|apply mid_coords_bounds].
Qed.
Lemma mid_inner_bounds f : in_bounds C (zip_with Z.modulo (mid_coords f) C).
Proof.
  apply zip_mod_bounds; [apply C_pos|]. unfold mid_coords. rewrite unravel_length, lenA, lenC; auto.
Qed.

Lemma no_zero_chunk : any_zero_chunk (tl ds) = false.
Proof.
  unfold any_zero_chunk, ds; simpl. pose proof (fit_inner _ _ _ _ _ Hf).
  induction H; simpl; auto. destruct H as (?&?&?). rewrite (proj2 (Z.eqb_neq _ _)) by lia. auto.
Qed.

(** zarr.dimension.cpp:75-93 computes the row-major index of the chunk column the frame falls in. *)
Lemma tile_group_offset_exact f :
  0 <= f < 2 ^ 32 ->
  tile_group_offset ds f
  = Ok (ravel N (zip_with Z.div (mid_coords f) C) * (nch dy * nch dx)).
Proof.
  intros Hfr. unfold tile_group_offset. rewrite no_zero_chunk.
  pose proof nch_bound as (HN & Hy & Hx & Hb).
  pose proof (ravel_bound _ _ (mid_chunk_bounds f)) as Hrv.
  set (X := zip_with Z.div (mid_coords f) C) in *.
  assert (LX : List.length X = List.length mids).
  { unfold X. rewrite zip_with_length; unfold mid_coords; rewrite unravel_length, lenA; auto. rewrite lenC; auto. }
  assert (Hst : strides u64 nchunks32 ds = sprods (map nch ds)).
  { unfold ds. apply strides_exact with (m := 2 ^ 64); auto using wraps_u64; try lia.
    - eapply Forall_impl; [|apply (fit_inner _ _ _ _ _ Hf)]. intros; apply nchunks32_ok; auto.
    - apply inner_allpos_nch, (fit_inner _ _ _ _ _ Hf).
    - rewrite nch_prod_split; lia. }
  rewrite Hst.
  set (Y := map (fun s => s * (nch dy * nch dx)) (sprods N)).
  assert (LY : List.length Y = List.length mids) by (unfold Y; rewrite map_length, sprods_length, lenN; auto).
  assert (Hnth : forall i, (1 <= i <= List.length mids)%nat ->
             nth i (sprods (map nch ds)) 0 = nth (i - 1) Y 0).
  { intros i Hi. destruct i; [lia|]. replace (S i - 1)%nat with i by lia.
    unfold ds. cbn [map sprods nth]. rewrite map_app, sprods_app_nth by (rewrite map_length; lia).
    unfold Y. rewrite (nth_indep (map _ _) 0 (0 * (nch dy * nch dx))) by (rewrite map_length, sprods_length, lenN; lia).
    rewrite (map_nth (fun s => s * (nch dy * nch dx))). f_equal. simpl; lia. }
  assert (Hdot : dot X Y = ravel N X * (nch dy * nch dx)).
  { rewrite <- dot_sprods by (rewrite lenN; auto). unfold Y. clear. generalize (sprods N) as M0. generalize X as l.
    induction l; destruct M0; simpl; try lia. rewrite IHl. lia. }
  assert (Hpos : forall i, 0 <= nth i X 0 /\ 0 <= nth i Y 0).
  { intros i. split.
    - destruct (Nat.lt_ge_cases i (List.length X)); [|rewrite nth_overflow; lia].
      pose proof (in_bounds_nonneg _ _ (mid_chunk_bounds f)). fold X in H0.
      eapply Forall_forall in H0; [apply H0|apply nth_In; auto].
    - destruct (Nat.lt_ge_cases i (List.length Y)); [|rewrite nth_overflow; lia].
      assert (HY : Forall (fun y => 0 <= y) Y).
      { unfold Y. apply Forall_map. pose proof N_pos as HNp. clear -HNp Hy Hx.
        induction N; simpl; constructor.
        - apply allpos_cons in HNp as [? HNp]. pose proof (prodZ_pos _ HNp). nia.
        - apply IHl. apply allpos_cons in HNp; tauto. }
      eapply Forall_forall in HY; [apply HY|apply nth_In; auto]. }
  replace (List.length ds - 3)%nat with (List.length mids) by (unfold ds; rewrite ds_length; lia).
  assert (Hseq : forall g, (forall i, (1 <= i <= List.length mids)%nat -> g i = nth (i-1) X 0 * nth (i-1) Y 0) ->
            sumZ (map g (rev (seq 1 (List.length mids)))) = ravel N X * (nch dy * nch dx)).
  { intros g Hg. rewrite map_rev, sumZ_rev, <- Hdot, <- sum_nth_dot by lia. rewrite LX. f_equal.
    apply map_ext_in. intros i Hi. apply in_seq in Hi. apply Hg; lia. }
  rewrite (ofold_sum_exact u64 (2 ^ 64) (chunk_lattice_index ds f) (fun i => nth (i - 1) X 0)
             (fun i => nth i (sprods (map nch ds)) 0)); auto using wraps_u64; try lia.
  - rewrite Hseq.
    + simpl. rewrite u32_id; [f_equal; lia|]. nia.
    + intros i Hi. rewrite Hnth by lia. auto.
  - apply Forall_forall. intros i Hi. apply in_rev in Hi. apply in_seq in Hi. split; [|split].
    + apply lattice_index_exact; lia.
    + apply Hpos.
    + rewrite Hnth by lia. apply Hpos.
  - rewrite Hseq; [nia|]. intros i Hi. rewrite Hnth by lia. auto.
Qed.

Lemma cio_loop f suf pre :
  mids = pre ++ suf -> 0 <= f ->
  ofold (cio_step f) (rev suf) (1, 1, 0)
  = Ok (prodZ (map d_array suf), prodZ (map d_chunk suf),
        ravel (map d_chunk suf)
              (zip_with Z.modulo (unravel (map d_array suf) (f mod prodZ (map d_array suf))) (map d_chunk suf))).
Proof.
  intros Hm Hf0. revert pre Hm. induction suf as [|d suf IH]; intros pre Hm; [reflexivity|].
  assert (Hm' : mids = (pre ++ [d]) ++ suf) by (rewrite <- app_assoc; auto).
  simpl rev. rewrite ofold_app, (IH _ Hm'). cbn [obind ofold].
  assert (Hin : Forall inner_ok (d :: suf)).
  { pose proof inner_mids. rewrite Hm in H. apply Forall_app in H; tauto. }
  assert (HPA : prodZ (map d_array (d :: suf)) <= prodZ A).
  { unfold A. rewrite Hm, map_app, prodZ_app.
    pose proof inner_mids. rewrite Hm in H. apply Forall_app in H as [H _].
    pose proof (prodZ_ge1 _ (inner_allpos_arr _ H)). pose proof (prodZ_pos _ (inner_allpos_arr _ Hin)). nia. }
  assert (HPC : prodZ (map d_chunk (d :: suf)) <= prodZ C).
  { unfold C. rewrite Hm, map_app, prodZ_app.
    pose proof inner_mids. rewrite Hm in H. apply Forall_app in H as [H _].
    pose proof (prodZ_ge1 _ (inner_allpos_chk _ H)). pose proof (prodZ_pos _ (inner_allpos_chk _ Hin)). nia. }
  pose proof PA_bound. pose proof PC_bound.
  pose proof (prodZ_pos _ (inner_allpos_arr _ Hin)) as H1. pose proof (prodZ_pos _ (inner_allpos_chk _ Hin)) as H2.
  simpl in *. inv Hin. destruct H5 as (Ha & Hc & Hac).
  pose proof (prodZ_pos _ (inner_allpos_arr _ H6)) as H1'. pose proof (prodZ_pos _ (inner_allpos_chk _ H6)) as H2'.
  set (PA := prodZ (map d_array suf)) in *. set (PC := prodZ (map d_chunk suf)) in *.
  unfold odiv, omod. rewrite (proj2 (Z.eqb_neq PA 0)) by lia. cbn [obind].
  rewrite (proj2 (Z.eqb_neq (d_array d) 0)) by lia. cbn [obind].
  rewrite (proj2 (Z.eqb_neq (d_chunk d) 0)) by lia. cbn [obind].
  rewrite (mod_mul_div f (d_array d) PA), (mod_mod_mul f (d_array d) PA) by lia.
  assert (Hrv : 0 <= ravel (map d_chunk suf) (zip_with Z.modulo (unravel (map d_array suf) (f mod PA)) (map d_chunk suf)) < PC).
  { apply ravel_bound, zip_mod_bounds; [apply inner_allpos_chk; auto|].
    rewrite unravel_length, !map_length; auto. }
  set (R := ravel _ _) in *.
  pose proof (Z.mod_pos_bound ((f / PA) mod d_array d) (d_chunk d) Hc).
  set (k := ((f / PA) mod d_array d) mod d_chunk d) in *.
  assert (k * PC + PC <= d_chunk d * PC) by nia.
  assert (0 <= k * PC) by nia.
  rewrite (u64_id (PA * d_array d)) by lia.
  rewrite (u64_id (PC * d_chunk d)) by lia.
  rewrite (u64_id (k * PC)) by lia.
  rewrite (u64_id (R + k * PC)) by lia.
  replace (PA * d_array d) with (d_array d * PA) by lia.
  replace (PC * d_chunk d) with (d_chunk d * PC) by lia.
  replace (R + k * PC) with (k * PC + R) by lia. reflexivity.
Qed.

(** zarr.dimension.cpp:95-125 computes the byte offset of the frame's tile inside its chunk. *)
Lemma chunk_internal_offset_exact f :
  0 <= f ->
  chunk_internal_offset ds dt f
  = Ok (ravel (d_chunk d0 :: C) ((f / prodZ A) mod d_chunk d0 :: zip_with Z.modulo (mid_coords f) C)
        * (d_chunk dy * d_chunk dx * bpp)).
Proof.
  intros Hf0. unfold chunk_internal_offset. rewrite Hbpp. cbn [obind]. unfold ds.
  rewrite mid_dims_eq, width_dim_eq, height_dim_eq, final_dim_eq.
  rewrite (cio_loop f mids []) by auto. cbn [obind]. fold A C.
  pose proof PA_pos. pose proof (prodZ_pos _ C_pos). pose proof (fit_c0 _ _ _ _ _ Hf).
  unfold odiv, omod. rewrite (proj2 (Z.eqb_neq (prodZ A) 0)) by lia. cbn [obind].
  rewrite (proj2 (Z.eqb_neq (d_chunk d0) 0)) by lia. cbn [obind].
  cbn [ravel].
  pose proof (ravel_bound _ _ (mid_inner_bounds f)) as Hrv. unfold mid_coords in *.
  set (R := ravel _ _) in *.
  pose proof (Z.mod_pos_bound (f / prodZ A) (d_chunk d0) ltac:(lia)) as Hk.
  set (k := (f / prodZ A) mod d_chunk d0) in *.
  pose proof (fit_bytes _ _ _ _ _ Hf) as Hb. fold ds in Hb. rewrite chk_prod_split in Hb.
  pose proof (fit_bpp _ _ _ _ _ Hf) as Hb0.
  destruct inner_dy as (_ & Hcy & _). destruct inner_dx as (_ & Hcx & _).
  assert (E1 : 0 < d_chunk dy * d_chunk dx) by nia.
  set (T := d_chunk dy * d_chunk dx) in *.
  assert (E2 : 0 < T * bpp) by nia.
  assert (E3 : k * prodZ C + R < d_chunk d0 * prodZ C) by nia.
  assert (E4 : (d_chunk d0 * prodZ C) * (T * bpp) < 2 ^ 63) by lia.
  assert (E5 : 0 <= k * prodZ C) by nia.
  assert (E6 : d_chunk d0 * prodZ C < 2 ^ 63) by nia.
  assert (E7 : T * bpp < 2 ^ 63) by nia.
  assert (E8 : d_chunk dx * bpp <= T * bpp). { subst T. nia. }
  rewrite (u64_id (bpp * d_chunk dx)) by nia.
  rewrite (u64_id (bpp * d_chunk dx * d_chunk dy)) by (subst T; nia).
  rewrite (u64_id (k * prodZ C)) by lia.
  rewrite (u64_id (R + k * prodZ C)) by lia.
  rewrite u64_id.
  - f_equal. subst T. ring.
  - replace (bpp * d_chunk dx * d_chunk dy) with (T * bpp) by (subst T; ring). nia.
Qed.

Lemma chunk_internal_offset_range f : 0 <= ravel (d_chunk d0 :: C) ((f / prodZ A) mod d_chunk d0 :: zip_with Z.modulo (mid_coords f) C) * (d_chunk dy * d_chunk dx * bpp) < 2 ^ 63.
Proof.
  cbn [ravel]. pose proof PA_pos. pose proof (prodZ_pos _ C_pos). pose proof (fit_c0 _ _ _ _ _ Hf).
  pose proof (ravel_bound _ _ (mid_inner_bounds f)) as Hrv. unfold mid_coords in *. set (R := ravel _ _) in *.
  pose proof (Z.mod_pos_bound (f / prodZ A) (d_chunk d0) ltac:(lia)) as Hk. set (k := (f / prodZ A) mod d_chunk d0) in *.
  pose proof (fit_bytes _ _ _ _ _ Hf) as Hb. fold ds in Hb. rewrite chk_prod_split in Hb. pose proof (fit_bpp _ _ _ _ _ Hf) as Hb0.
  destruct inner_dy as (_ & Hcy & _). destruct inner_dx as (_ & Hcx & _).
  assert (E1 : 0 < d_chunk dy * d_chunk dx) by nia. set (T := d_chunk dy * d_chunk dx) in *.
  assert (E2 : 0 < T * bpp) by nia. assert (E3 : k * prodZ C + R < d_chunk d0 * prodZ C) by nia.
  assert (E4 : (d_chunk d0 * prodZ C) * (T * bpp) < 2 ^ 63) by lia. assert (E5 : 0 <= k * prodZ C) by nia. nia.
Qed.

Lemma number_of_chunks_exact :
  number_of_chunks_in_memory ds = Ok (prodZ N * (nch dy * nch dx)).
Proof.
  unfold number_of_chunks_in_memory. unfold ds; simpl tl.
  rewrite (ofold_mul_exact u32 (2 ^ 32) _ nch); auto using wraps_u32; try lia.
  - rewrite nch_prod_split. f_equal; lia.
  - eapply Forall_impl; [|apply (fit_inner _ _ _ _ _ Hf)]. intros; apply chunks_along_ok; auto.
  - apply inner_allpos_nch, (fit_inner _ _ _ _ _ Hf).
  - rewrite nch_prod_split. pose proof nch_bound. lia.
Qed.

Lemma bytes_per_chunk_exact :
  bytes_per_chunk ds dt = Ok (prodZ (map d_chunk ds) * bpp).
Proof.
  unfold bytes_per_chunk. rewrite Hbpp. cbn [obind].
  rewrite (fold_mul_exact u64 (2 ^ 64)); auto using wraps_u64.
  - f_equal; lia.
  - pose proof (fit_bpp _ _ _ _ _ Hf); lia.
  - unfold ds. simpl. apply allpos_cons. split. apply (fit_c0 _ _ _ _ _ Hf).
    apply inner_allpos_chk, (fit_inner _ _ _ _ _ Hf).
  - pose proof (fit_bytes _ _ _ _ _ Hf). fold ds in H. lia.
Qed.

Lemma bytes_of_frame_exact :
  bytes_of_frame ds dt = Ok (d_array dy * d_array dx * bpp).
Proof.
  unfold bytes_of_frame. rewrite Hbpp. cbn [obind]. unfold ds.
  rewrite width_dim_eq, height_dim_eq.
  pose proof (fit_frame _ _ _ _ _ Hf). pose proof (fit_bpp _ _ _ _ _ Hf).
  destruct inner_dy as (Hcy & _). destruct inner_dx as (Hcx & _).
  assert (d_array dy <= d_array dy * d_array dx) by nia.
  rewrite (u64_id (bpp * d_array dy)) by nia.
  rewrite u64_id; [f_equal; ring|]. nia.
Qed.
End Exact.
