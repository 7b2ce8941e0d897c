(** Objects of complete rows and full shards exist while the stream runs; and the run of a machine whose requests were answered
    is the run of a fair use. *)
Require Import ZArith List Bool String Ascii Lia Zify.
Require Import Verif.Base Verif.Spec Verif.Dim Verif.Limits Verif.Radix Verif.PathProofs Verif.World Verif.SinkProofs Verif.FlushProofs Verif.LayoutProofs Verif.BufProofs Verif.Writer Verif.WriterProofs Verif.LevelProofs Verif.StreamProofs Verif.PyramidProofs Verif.MetaProofs Verif.Stream Verif.Api
  Verif.SettingsSpec Verif.SessionSpec Verif.SessionProofs Verif.AppendProofs Verif.LevelsProofs Verif.RunSpec Verif.RunProofs Verif.StoreProofs Verif.IndexProofs Verif.StoreSpec Verif.ChunkStore.
Require Verif.DimProofs Verif.RepProofs Verif.RepStream.
Require Import Verif.AnswerSpec Verif.AnswerProofs Verif.AnswerStream Verif.AnswerCreate.
Import ListNotations.
Open Scope string_scope.
Open Scope list_scope.
Open Scope Z_scope.

Section R.
Variable u : use.
Hypothesis HU : fair_use u.
Variable groups : list (list (list Z)).
Hypothesis HG : whole_frames u groups.
Variables (s : stream) (w : world).
Hypothesis HR : running u groups s w.
Let F := List.concat groups.

Lemma there_v2 b i q cc : st_version (u_set u) = 2 -> u_bk u = Some b -> is_level u i -> 0 <= q -> (q + 1) * lv_period u i <= zlen (u_frames u F i) ->
  in_bounds (map nch (lv_inner u i)) cc ->
  object_of (u_env u) (w_trace w) b (path_of_coords (u_root u ++ "/" ++ dec (Z.of_nat i)) (q :: cc)) <> None.
Proof.
  intros V B Hi Hq Hn Hcc. destruct (run_state u HU groups HG) as (s' & w' & Fs & R & I & _ & N). destruct (running_unique u groups s w s' w' HR R) as [-> ->]. clear R.
  apply (is_level_nth u HU) in Hi as (L & HL). pose proof (si_lv _ _ _ _ _ _ _ _ _ _ _ I) as (_ & _ & LV). destruct (LV i L HL) as (a & Ha & W).
  rewrite (N i L HL) in W. unfold winv in W. assert (V3 : (st_version (u_set u) =? 3) = false) by (rewrite V; reflexivity). rewrite V3 in W.
  destruct (level_names u HU i L HL) as (N1 & N2 & N3 & N4 & N5 & N6 & N7 & N8). rewrite <- N6 in Hn. rewrite <- N2 in Hcc.
  destruct (a_ok u HU i L HL) as [OK LVL]. rewrite V3 in OK. pose proof (ravel_bound _ _ Hcc) as Bc.
  assert (PP : 0 < l_P L). { unfold l_P. apply Z.mul_pos_pos; [pose proof (fit_c0 _ _ _ _ _ (lo_f _ _ _ _ _ _ OK)); lia|]. apply (prodA_pos u HU i L HL). }
  pose proof (i2_st _ _ _ _ _ _ _ _ _ _ _ _ W q (ravel (map nch (l_mids L ++ [l_dy L; l_dx L])) cc)) as X. unfold F in *.
  assert (Q : 0 <= q < zlen (u_frames u (List.concat groups) i) / l_P L). { split; [exact Hq|]. assert (q + 1 <= zlen (u_frames u (List.concat groups) i) / l_P L) by (apply Z.div_le_lower_bound; lia). lia. }
  rewrite DimProofs.nch_prod_split in Bc. specialize (X Q Bc).
  unfold cloc, base in X. rewrite (lo_root _ _ _ _ _ _ OK), (lo_bk _ _ _ _ _ _ OK), unravel_ravel in X by exact Hcc. rewrite B in X. unfold l_level in LVL. rewrite LVL in X.
  assert (J : join_path (u_root u) (data_comps false (Z.of_nat i) q) = ((u_root u ++ "/" ++ dec (Z.of_nat i)) ++ "/" ++ dec q)%string) by (unfold data_comps; cbn [join_path]; rewrite !sapp_assoc; reflexivity).
  rewrite J in X.
  change (path_of_coords (u_root u ++ "/" ++ dec (Z.of_nat i)) (q :: cc)) with (path_of_coords ((u_root u ++ "/" ++ dec (Z.of_nat i)) ++ "/" ++ dec q) cc)%string.
  unfold mkloc, content in X. intros Z0. match type of X with ?a = ?b => assert (Y : b = None) by (rewrite <- Z0; symmetry; exact X) end. discriminate Y.
Qed.

Lemma there_v3 b i q cc : st_version (u_set u) = 3 -> u_bk u = Some b -> is_level u i -> 0 <= q -> (q + 1) * lv_shard_period u i <= zlen (u_frames u F i) ->
  in_bounds (map nsh (lv_inner u i)) cc ->
  object_of (u_env u) (w_trace w) b (shard_key (u_root u ++ "/data/root/" ++ dec (Z.of_nat i)) (q :: cc)) <> None.
Proof.
  intros V B Hi Hq Hn Hcc. destruct (run_state u HU groups HG) as (s' & w' & Fs & R & I & _ & N). destruct (running_unique u groups s w s' w' HR R) as [-> ->]. clear R.
  apply (is_level_nth u HU) in Hi as (L & HL). pose proof (si_lv _ _ _ _ _ _ _ _ _ _ _ I) as (_ & _ & LV). destruct (LV i L HL) as (a & Ha & W).
  rewrite (N i L HL) in W. unfold winv in W. assert (V3 : (st_version (u_set u) =? 3) = true) by (rewrite V; reflexivity). rewrite V3 in W.
  destruct (level_names u HU i L HL) as (N1 & N2 & N3 & N4 & N5 & N6 & N7 & N8). rewrite <- N7 in Hn. rewrite <- N2 in Hcc.
  destruct (a_ok u HU i L HL) as [OK LVL]. rewrite V3 in OK. pose proof (ravel_bound _ _ Hcc) as Bc. destruct (lo_s _ _ _ _ _ _ OK eq_refl) as [Hsh _].
  assert (PP : 0 < l_PP L). { unfold l_PP, l_P. apply Z.mul_pos_pos; [apply Z.mul_pos_pos; [pose proof (fit_c0 _ _ _ _ _ (lo_f _ _ _ _ _ _ OK)); lia|]; apply (prodA_pos u HU i L HL)|exact (fit_s0 _ _ _ _ Hsh)]. }
  set (k := Z.to_nat (ravel (map nsh (l_mids L ++ [l_dy L; l_dx L])) cc)).
  pose proof (i3_st _ _ _ _ _ _ _ _ _ _ _ _ W q k) as X. unfold F in *.
  assert (Q : 0 <= q < sE (l_d0 L) (l_mids L) (u_frames u (List.concat groups) i)).
  { split; [exact Hq|]. assert (q + 1 <= zlen (u_frames u (List.concat groups) i) / l_PP L) as Y by (apply Z.div_le_lower_bound; [exact PP|rewrite Z.mul_comm; exact Hn]). unfold l_PP, l_P in Y. unfold sE. clear - Y. lia. }
  specialize (X Q ltac:(unfold k; clear - Bc; lia)).
  unfold sloc, base in X. rewrite (lo_root _ _ _ _ _ _ OK), (lo_bk _ _ _ _ _ _ OK) in X.
  assert (U : unravel (map nsh (l_mids L ++ [l_dy L; l_dx L])) (Z.of_nat k) = cc). { unfold k. rewrite Z2Nat.id by lia. apply unravel_ravel; auto. }
  rewrite U in X. rewrite B in X. unfold l_level in LVL. rewrite LVL in X.
  assert (J : join_path (u_root u) (data_comps true (Z.of_nat i) q) = ((u_root u ++ "/data/root/" ++ dec (Z.of_nat i)) ++ "/c" ++ dec q)%string) by (unfold data_comps; cbn [join_path]; rewrite !sapp_assoc; reflexivity).
  rewrite J in X.
  unfold shard_key. unfold mkloc, content in X. intros Z0. match type of X with ?a = ?b => assert (Y : b = None) by (rewrite <- Z0; symmetry; exact X) end. discriminate Y.
Qed.
End R.

(** *** The same use on a machine with [n] connections and nothing in the buckets, [k] requests later *)
Definition moved (u : use) (n k : nat) : use :=
  mkuse (other (u_env u) (fun _ _ => None) (e_fault (u_env u)) (e_s3 (u_env u)) n) (later_tick (u_world u) k) (u_set u)
    (u_d0 u) (u_mids u) (u_dy u) (u_dx u) (u_bpp u) (u_root u) (u_bk u) (u_enc u) (u_dec u).
Lemma moved_fair u n k : fair_use u -> n <> 0%nat -> fair_use (moved u n k).
Proof.
  intros U N. constructor; try exact (fun _ => N).
  - exact (fu_fs _ U).
  - exact (fu_s3 _ U).
  - exact (fu_stat _ U).
  - exact (fu_disk _ U).
  - exact (fu_err _ U).
  - exact (fu_typed _ U).
  - exact (fu_strings _ U).
  - exact (fu_doc _ U).
  - exact (fu_root _ U).
  - exact (fu_bk _ U).
  - exact (fu_dims _ U).
  - exact (fu_bpp _ U).
  - exact (fu_path _ U).
  - exact (fu_codec _ U).
  - exact (fu_fits _ U).
  - exact (fu_epoch _ U).
  - exact (fu_most _ U).
  - exact (fu_shards _ U).
  - exact (fu_ndims _ U).
  - exact (fu_names _ U).
  - exact (fu_meta _ U).
  - exact (fu_multi _ U).
Qed.

(** a run without refused requests is the run of the moved use *)
Lemma answered_run u groups answer b w1 s1 w2 s2 rs :
  fair_use u -> whole_frames u groups -> u_bk u = Some b ->
  let E := answering (u_env u) answer in
  api_create E (Some (u_set u)) (u_world u) = (w1, Ok (Some s1)) ->
  api_appends E (calls groups) (s1, w1) = ((s2, w2), Ok rs) ->
  w_err w1 = "" \/ ~ RepProofs.refused_in E (w_tick (u_world u)) (w_tick w1) ->
  ~ RepProofs.refused_in E (w_tick w1) (w_tick w2) ->
  exists n k, n <> 0%nat /\ running (moved u n k) groups s2 w2.
Proof.
  intros U W B E C A R1 R2. unfold api_create, catchM, bind in C. destruct (new_stream E (Some (u_set u)) (u_world u)) as [w1' [s|m| |]] eqn:NS; try discriminate. injection C as <- <-.
  pose proof (fu_bk _ U) as BK. destruct (st_s3 (u_set u)) as [x|] eqn:S3; [|rewrite BK in B; discriminate]. clear BK.
  destruct (create_as (u_env u) (fun _ _ => None) (e_fault (u_env u)) answer (e_conns (u_env u)) (fu_s3 _ U) (fun _ => eq_refl) (u_set u) x (u_world u) w1' s S3 NS R1) as (n & N1 & _ & N3).
  exists n, (e_conns (u_env u) - n)%nat. split; [exact N1|]. set (v := moved u n (e_conns (u_env u) - n)).
  pose proof (moved_fair u n (e_conns (u_env u) - n) U N1) as V. fold v in V.
  destruct (run_state v V groups W) as (s' & w' & _ & Run & _). pose proof Run as (s1' & w1'' & C' & A').
  assert (CC : api_create (u_env v) (Some (u_set v)) (u_world v) = (w1', Ok (Some s))) by (unfold api_create, catchM, bind; cbn [u_env u_set u_world v moved]; rewrite N3; reflexivity).
  rewrite CC in C'. injection C' as <- <-.
  pose proof (t_api_appends (u_env v) (e_obj0 (u_env u)) (e_fault (u_env u)) answer (e_conns (u_env u)) (calls groups) (s, w1')) as [_ T].
  change (other (u_env v) (e_obj0 (u_env u)) (e_fault (u_env u)) answer (e_conns (u_env u))) with E in T.
  match type of A with ?a = _ => match type of T with _ -> ?a' = ?b => assert (TT : a' = b) end end.
  { apply T. intros t Ht. split; [reflexivity|]. cbn. rewrite (fu_s3 _ U). destruct (answer t) eqn:At; [reflexivity|]. destruct R2. exists t. split; [|exact At].
    clear -Ht A. unfold E in *. rewrite A in Ht. exact Ht. }
  assert (X : ((s2, w2), Ok rs) = ((s', w'), Ok (map (fun c => (st_success, Some (zlen c))) (calls groups)))) by (rewrite <- A, <- A'; exact TT).
  injection X as -> -> _. exact Run.
Qed.
