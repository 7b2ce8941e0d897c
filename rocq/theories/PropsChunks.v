(** C07, C09, C11, C31: the stored chunks of a session, at every level. Vocabulary: StoreSpec.v, Spec.v. *)
Require Import ZArith List Bool String Ascii Lia Zify.
Require Import Verif.Base Verif.Spec Verif.Dim Verif.Limits Verif.World Verif.Stream Verif.Api
  Verif.SettingsSpec Verif.SessionSpec Verif.SessionProofs Verif.PyramidSpec Verif.StoreSpec Verif.ChunkStore Verif.StoreProofs Verif.Examples Verif.ExamplesUse.
Import ListNotations.
Open Scope string_scope.
Open Scope list_scope.
Open Scope Z_scope.

Lemma frames_whole u groups : whole_frames u groups -> Forall (fun f => zlen f = u_frame u) (List.concat groups).
Proof. intros [H _]. induction H; cbn; [constructor|]. apply Forall_app; auto. Qed.

(** *** C07, C31 (and C01 again, at every level): every byte of every stored chunk of a v2 store. Bytes that no appended frame
    covers are 0 ([chunk_holds]); the stored bytes are the compressor's output for that chunk ([level_v2]). *)
Theorem C07_C31_v2_chunks : forall u groups,
  fair_use u -> whole_frames u groups -> st_version (u_set u) = 2 ->
  exists G, level_frames u (List.concat groups) G /\ forall i, is_level u i -> level_v2 u groups i (G i).
Proof.
  intros u groups HU HG V. exists (u_frames u (List.concat groups)). split; [apply u_levels; auto using frames_whole|].
  intros i Hi. apply s_level_v2; auto.
Qed.

(** *** C07, C11, C31 for v3: every shard that is full or finished has a well-formed index, and every chunk found through the
    index is right in every byte. *)
Theorem C07_C11_C31_v3_shards : forall u groups,
  fair_use u -> whole_frames u groups -> st_version (u_set u) = 3 ->
  exists G, level_frames u (List.concat groups) G /\
    forall i, is_level u i -> level_v3 u groups i (G i).
Proof.
  intros u groups HU HG V. exists (u_frames u (List.concat groups)). split; [apply u_levels; auto using frames_whole|].
  intros i Hi. apply s_level_v3; auto.
Qed.

(** the same for level 0, where the frames are the appended ones *)
Corollary C11_shard_index : forall u groups,
  fair_use u -> whole_frames u groups -> st_version (u_set u) = 3 ->
  let n := zlen (List.concat groups) in
  forall s sc, (s + 1) * lv_shard_period u 0 <= n \/ finished u 0 n -> 0 <= s -> s * lv_shard_period u 0 < n -> in_bounds (map nsh (u_mids u ++ [u_dy u; u_dx u])) sc ->
  exists file, store u groups (shard_key (u_root u ++ "/data/root/0") (s :: sc)) = Some file /\ index_ok file (prodZ (map d_shard (u_dims u))).
Proof.
  intros u groups HU HG V n s sc Hfin Hs Hn Hsc.
  destruct (C07_C11_C31_v3_shards u groups HU HG V) as (G & [G0 Gn _ _] & H). specialize (H 0%nat (or_introl eq_refl)). rewrite G0 in H.
  destruct (H s sc Hfin Hs Hn) as (file & A & B & _).
  - unfold lv_inner. rewrite (map_ext (at_level 0) (fun d => d)) by reflexivity. rewrite map_id. exact Hsc.
  - exists file. split; [exact A|]. unfold lv_dims in B. rewrite (map_ext (at_level 0) (fun d => d)) in B by reflexivity. rewrite map_id in B. exact B.
Qed.

(** *** C09: without compression every chunk has the declared size *)
Theorem C09_chunk_size : forall u groups,
  fair_use u -> whole_frames u groups -> st_version (u_set u) = 2 -> st_comp (u_set u) = None ->
  forall i q cc, is_level u i -> 0 <= q -> q * lv_period u i < zlen (List.concat groups) / 2 ^ Z.of_nat i ->
    in_bounds (map nch (lv_inner u i)) cc ->
    exists raw, store u groups (path_of_coords (u_root u ++ "/" ++ dec (Z.of_nat i)) (q :: cc)) = Some raw /\
      zlen raw = prodZ (map d_chunk (lv_dims u i)) * u_bpp u.
Proof.
  intros u groups HU HG V C i q cc Hi Hq Hn Hcc.
  destruct (C07_C31_v2_chunks u groups HU HG V) as (G & [G0 Gn _ _] & H). destruct (H i Hi q cc Hq) as (raw & A & _ & B & _).
  - rewrite Gn. exact Hn.
  - exact Hcc.
  - exists raw. split; [exact A|]. pose proof (fu_codec _ HU) as X. rewrite C in X. destruct X as [_ X]. rewrite X in B. exact B.
Qed.

(** *** The hypotheses can be met: a compressed multiscale store with three levels *)
Example C07_C31_v2_hypotheses : let u := ex_comp 2 false true in let groups := ex_groups 1 19 in
  fair_use u /\ whole_frames u groups /\ st_version (u_set u) = 2 /\ is_level u 2 /\ 3 * lv_period u 0 < zlen (List.concat groups).
Proof.
  split; [apply ex_comp_fair; auto|]. split; [apply ex_frames_whole; lia|]. split; [reflexivity|]. split; [|vm_compute; reflexivity].
  right. split; [reflexivity|]. exists 2%nat. split; [exact ex_last_level|lia].
Qed.
Example C07_C11_C31_v3_hypotheses : let u := ex_comp 3 false true in let groups := ex_groups 1 20 in
  fair_use u /\ whole_frames u groups /\ st_version (u_set u) = 3 /\ is_level u 2 /\
  finished u 0 (zlen (List.concat groups)) /\ finished u 1 (zlen (List.concat groups) / 2) /\ finished u 2 (zlen (List.concat groups) / 4).
Proof.
  split; [apply ex_comp_fair; auto|]. split; [apply ex_frames_whole; lia|]. split; [reflexivity|]. split; [|vm_compute; intuition discriminate].
  right. split; [reflexivity|]. exists 2%nat. split; [exact ex_last_level|lia].
Qed.
Example C09_hypotheses : let u := ex_plain 2 true in let groups := ex_groups 2 9 in
  fair_use u /\ whole_frames u groups /\ st_version (u_set u) = 2 /\ st_comp (u_set u) = None /\ is_level u 0 /\
  in_bounds (map nch (lv_inner u 0)) [1; 2; 2].
Proof. split; [apply ex_plain_fair; auto|]. split; [apply ex_frames_whole; lia|]. split; [reflexivity|]. split; [reflexivity|]. split; [left; reflexivity|]. vm_compute. intuition congruence. Qed.

Print Assumptions C07_C31_v2_chunks.
Print Assumptions C07_C11_C31_v3_shards.
Print Assumptions C11_shard_index.
Print Assumptions C09_chunk_size.
