(** The stored levels of a session, whole chunks. *)
Require Import ZArith List Bool String Ascii Lia Zify.
Require Import Verif.Base Verif.Spec Verif.Dim Verif.Limits Verif.Radix Verif.Json Verif.PathProofs Verif.World Verif.Writer
  Verif.SinkProofs Verif.FlushProofs Verif.LayoutProofs Verif.BufProofs Verif.WriterProofs Verif.ChunkProofs
  Verif.LevelProofs Verif.Stream Verif.MetaProofs Verif.StreamProofs Verif.PyramidProofs Verif.Api Verif.SettingsSpec Verif.ValidProofs
  Verif.SessionSpec Verif.SessionProofs Verif.JsonSpec Verif.JsonProofs Verif.StoreProofs Verif.IndexProofs Verif.PyramidSpec Verif.LevelsProofs Verif.StoreSpec.
Import ListNotations.
Open Scope string_scope.
Open Scope list_scope.
Open Scope Z_scope.

Lemma last_level_unique ds N N' : last_level ds N -> last_level ds N' -> N = N'.
Proof.
  intros (A & B & C) (A' & B' & C'). destruct (Nat.lt_trichotomy N N') as [X|[X|X]]; auto; exfalso; [apply (C' N)|apply (C N')]; auto; lia.
Qed.

Section U.
Variable u : use.
Hypothesis HU : fair_use u.
Let Ls := u_L0 u :: u_Lr u.

Lemma is_level_nth i : is_level u i <-> exists L, nth_error Ls i = Some L.
Proof.
  split.
  - intros [->|(M & N & HN & Hi)]; [eexists; reflexivity|]. apply (level_exists u).
    rewrite (last_level_unique _ _ _ (level_count u HU M) HN). exact Hi.
  - intros (L & H). destruct i as [|i]; [left; reflexivity|]. right. assert (HL : (S i < List.length Ls)%nat) by (apply nth_error_Some; congruence).
    destruct (st_multi (u_set u)) eqn:M.
    + split; auto. exists (List.length (u_Lr u)). split; [apply (level_count u HU M)|]. cbn in HL. lia.
    + unfold Ls, u_Lr in HL. rewrite M in HL. cbn in HL. lia.
Qed.

Lemma level_names i L : nth_error Ls i = Some L ->
  l_ds L = lv_dims u i /\ l_mids L ++ [l_dy L; l_dx L] = lv_inner u i /\ d_array (l_dy L) = lv_H u i /\ d_array (l_dx L) = lv_W u i /\
  map d_array (l_mids L) = lv_A u i /\ l_P L = lv_period u i /\ l_PP L = lv_shard_period u i /\ l_d0 L = at_level i (u_d0 u).
Proof.
  intros H. destruct (level_dims u HU i L H) as (D0 & DM & DY & DX).
  unfold l_ds, l_PP, l_P, lv_shard_period, lv_period, lv_A, lv_H, lv_W, lv_dims, lv_inner, u_dims. cbn [map]. rewrite map_app. cbn [map]. rewrite D0, DM, DY, DX. repeat split; reflexivity.
Qed.

Lemma u_levels (F : list (list Z)) : Forall (fun f => zlen f = u_frame u) F -> level_frames u F (u_frames u F).
Proof.
  intros HF. constructor.
  - reflexivity.
  - intros i. apply frames_count.
  - intros i Hi. apply is_level_nth in Hi as (L & HL). destruct (level_names i L HL) as (_ & _ & <- & <- & _).
    destruct i as [|i].
    + cbn in HL. injection HL as <-. exact HF.
    + assert (HLt : (S i < List.length Ls)%nat) by (apply nth_error_Some; congruence).
      destruct (nth_error Ls i) as [K|] eqn:HK; [|apply nth_error_None in HK; lia].
      cbn [u_frames]. unfold up. rewrite Forall_forall. intros f Hin.
      destruct (In_nth _ _ [] Hin) as (j & Hj & <-). rewrite pairs_nth by exact Hj.
      assert (HK' : nth_error (u_L0 u :: u_Lr u) (S i - 1) = Some K) by (replace (S i - 1)%nat with i by lia; exact HK).
      rewrite (mean_len _ _ _ _ _ _ _ _ (u_lgood u HU) (fu_bpp _ HU) (u_step u HU) (S i) L K _ _ ltac:(lia) HK' HL).
      unfold l_fb. destruct (a_good u HU (S i) L HL) as [_ EL]. assert (EB : l_bpp L = u_bpp u) by (rewrite EL; reflexivity). rewrite EB. reflexivity.
  - intros H8 HB i Hi. apply is_level_nth in Hi as (L & HL). assert (HLt : (S i < List.length Ls)%nat) by (apply nth_error_Some; congruence).
      destruct (nth_error Ls i) as [K|] eqn:HK; [|apply nth_error_None in HK; lia].
      destruct (level_names i K HK) as (_ & _ & <- & <- & _). apply (frames_next u HU H8 F HB i K HK).
Qed.

Variable groups : list (list (list Z)).
Hypothesis HG : whole_frames u groups.
Let F := List.concat groups.

Lemma bpp_L i L : nth_error Ls i = Some L -> l_bpp L = u_bpp u.
Proof. intros H. destruct (a_good u HU i L H) as [_ EL]. rewrite EL. reflexivity. Qed.

Lemma enc_L i L : nth_error Ls i = Some L -> l_enc L = u_enc u.
Proof. intros H. destruct (a_good u HU i L H) as [_ EL]. rewrite EL. reflexivity. Qed.

Lemma s_level_v2 i : st_version (u_set u) = 2 -> is_level u i -> level_v2 u groups i (u_frames u F i).
Proof.
  intros V Hi. apply is_level_nth in Hi as (L & HL). intros q cc Hq Hn Hcc.
  destruct (level_names i L HL) as (N1 & N2 & N3 & N4 & N5 & N6 & N7 & N8). rewrite <- N1, <- N3, <- N4, <- N5. rewrite <- N6 in Hn. rewrite <- N2 in Hcc.
  destruct (a_ok u HU i L HL) as [OK LV]. pose proof (a_final u HU groups HG i L HL) as FIN. pose proof (bpp_L i L HL) as EB. rewrite V in OK, FIN. change (2 =? 3) with false in *.
  destruct FIN as [FIN _]. pose proof (lo_f _ _ _ _ _ _ OK) as Hf. pose proof (ravel_bound _ _ Hcc) as Bc.
  specialize (FIN q (ravel (map nch (l_mids L ++ [l_dy L; l_dx L])) cc) Hq Hn).
  assert (Bn : 0 <= ravel (map nch (l_mids L ++ [l_dy L; l_dx L])) cc < l_nbuf L). { unfold l_nbuf. rewrite DimProofs.nch_prod_split in Bc. lia. }
  specialize (FIN Bn). eexists. split.
  - refine (eq_trans _ FIN). unfold cloc, base, store. rewrite (lo_root _ _ _ _ _ _ OK), (lo_bk _ _ _ _ _ _ OK), unravel_ravel by exact Hcc.
    unfold l_level in LV. rewrite LV. 
    replace (join_path (u_root u) (data_comps false (Z.of_nat i) q)) with ((u_root u ++ "/" ++ dec (Z.of_nat i)) ++ "/" ++ dec q)%string by (unfold data_comps; cbn [join_path]; rewrite !sapp_assoc; reflexivity).
    unfold stored. destruct (u_bk u); reflexivity.
  - rewrite (a_dec u HU i L HL) by (exact (spec_chunk_len (l_bpp L) (l_d0 L) (l_mids L) (l_dy L) (l_dx L) Hf _ _ _)).
    split; [rewrite (enc_L i L HL); reflexivity|]. rewrite <- EB. apply chunk_spec; auto.
Qed.

Lemma s_level_v3 i : st_version (u_set u) = 3 -> is_level u i -> level_v3 u groups i (u_frames u F i).
Proof.
  intros V Hi. apply is_level_nth in Hi as (L & HL). intros s sc Hfin Hs Hn Hsc.
  destruct (level_names i L HL) as (N1 & N2 & N3 & N4 & N5 & N6 & N7 & N8). unfold finished in Hfin. rewrite <- N1, <- N2, <- N3, <- N4, <- N5, <- N6, <- N8. rewrite <- N7 in Hn. rewrite <- N2 in Hsc. rewrite <- N6, <- N7 in Hfin.
  destruct (a_ok u HU i L HL) as [OK LV]. pose proof (a_final u HU groups HG i L HL) as FIN. pose proof (bpp_L i L HL) as EB. rewrite V in OK, FIN. change (3 =? 3) with true in *.
  destruct (level_index _ _ _ _ L _ _ OK FIN s sc Hfin Hs Hn Hsc) as (file & S1 & S2 & S3). exists file.
  split; [rewrite LV in S1; exact S1|]. split; [exact S2|].
  intros cc Hcc Hd. specialize (S3 cc Hcc Hd). eexists. split; [exact S3|].
  pose proof (lo_f _ _ _ _ _ _ OK) as Hf.
  rewrite (a_dec u HU i L HL) by (exact (spec_chunk_len (l_bpp L) (l_d0 L) (l_mids L) (l_dy L) (l_dx L) Hf _ _ _)).
  split; [rewrite (enc_L i L HL); reflexivity|]. rewrite <- EB. unfold rows. fold (l_P L). rewrite Z.add_sub_assoc. apply chunk_spec; auto.
  destruct (lo_s _ _ _ _ _ _ OK eq_refl) as [Hsh _].
  assert (PP : 0 < l_P L). { unfold l_P. apply Z.mul_pos_pos; [pose proof (fit_c0 _ _ _ _ _ Hf); lia|]. apply (prodA_pos u HU i L HL). }
  pose proof (fit_s0 _ _ _ _ Hsh) as S0. pose proof (ceil_div_spec (zlen (u_frames u F i)) (l_P L) PP) as [C1 _].
  assert (s * d_shard (l_d0 L) < ceil_div (zlen (u_frames u F i)) (l_P L)).
  { apply (Z.mul_lt_mono_pos_r (l_P L)); [exact PP|]. unfold l_PP in Hn. replace (s * d_shard (l_d0 L) * l_P L) with (s * (l_P L * d_shard (l_d0 L))) by ring. apply Z.lt_le_trans with (zlen (u_frames u F i)); [exact Hn|exact C1]. }
  assert (0 <= s * d_shard (l_d0 L)) by (apply Z.mul_nonneg_nonneg; lia). set (a := s * d_shard (l_d0 L)) in *. set (c := ceil_div _ _) in *. clearbody a c. clear - S0 H H0. lia.
Qed.
End U.
