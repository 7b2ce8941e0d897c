(** C01, C02, C04, C06, C09, C12, C13, C14, C31, C33, C34, C36: the store after a whole session.
    [fair_use], [succeeds], [after], [key] are in SessionSpec.v, the readers in Spec.v, the JSON reader in JsonSpec.v. *)
Require Import ZArith List Bool String Ascii Lia Zify.
Require Import Verif.Base Verif.Spec Verif.Dim Verif.Limits Verif.Json Verif.World Verif.Writer Verif.WriterProofs Verif.FlushProofs Verif.LevelProofs Verif.Stream Verif.Api
  Verif.SettingsSpec Verif.SessionSpec Verif.SessionProofs Verif.JsonSpec Verif.JsonProofs Verif.StoreProofs Verif.Examples Verif.ExamplesUse.
Import ListNotations.
Open Scope string_scope.
Open Scope list_scope.
Open Scope Z_scope.

(** every byte that was appended is read back, and nothing else, from level 0 of a v2 store *)
Definition reads_back_v2 (u : use) (groups : list (list (list Z))) : Prop :=
  let A := map d_array (u_mids u) in
  forall t mm y x b,
    0 <= t < ceil_div (zlen (List.concat groups)) (prodZ A) -> in_bounds A mm ->
    0 <= y < d_array (u_dy u) -> 0 <= x < d_array (u_dx u) -> 0 <= b < u_bpp u ->
    read_v2 (stored (u_env u) (w_trace (after u groups)) (u_bk u)) (u_dec u) (u_root u ++ "/0")
            (map d_chunk (u_dims u)) (u_bpp u) (t :: mm ++ [y; x]) b
    = appended_byte (u_bpp u) A (d_array (u_dx u)) (List.concat groups) t mm y x b.
Definition reads_back_v3 (u : use) (groups : list (list (list Z))) : Prop :=
  let A := map d_array (u_mids u) in
  forall t mm y x b,
    0 <= t < ceil_div (zlen (List.concat groups)) (prodZ A) -> in_bounds A mm ->
    0 <= y < d_array (u_dy u) -> 0 <= x < d_array (u_dx u) -> 0 <= b < u_bpp u ->
    read_v3 (stored (u_env u) (w_trace (after u groups)) (u_bk u)) (u_dec u) (u_root u ++ "/data/root/0")
            (map d_chunk (u_dims u)) (map d_shard (u_dims u)) (u_bpp u) (t :: mm ++ [y; x]) b
    = appended_byte (u_bpp u) A (d_array (u_dx u)) (List.concat groups) t mm y x b.
(** frames between two flushes / per shard along the append dimension *)
Definition period (u : use) : Z := d_chunk (u_d0 u) * prodZ (map d_array (u_mids u)).
Definition shard_period (u : use) : Z := period u * d_shard (u_d0 u).

(** *** C01 *)
Theorem C01_v2_filesystem_round_trip : forall u groups,
  fair_use u -> whole_frames u groups -> st_version (u_set u) = 2 -> st_s3 (u_set u) = None ->
  succeeds u groups /\ u_bk u = None /\ reads_back_v2 u groups.
Proof.
  intros u groups HU HG V S3. split; [exact (a_succeeds u HU groups HG)|]. split.
  - pose proof (fu_bk _ HU) as B. rewrite S3 in B. exact B.
  - intros t mm y x b. exact (a_read2 u HU groups HG 0 (u_L0 u) V eq_refl t mm y x b).
Qed.

(** *** C14, v2: the same from a bucket *)
Theorem C14_v2_s3_round_trip : forall u groups,
  fair_use u -> whole_frames u groups -> st_version (u_set u) = 2 -> st_s3 (u_set u) <> None ->
  succeeds u groups /\ u_bk u <> None /\ reads_back_v2 u groups.
Proof.
  intros u groups HU HG V S3. split; [exact (a_succeeds u HU groups HG)|]. split.
  - pose proof (fu_bk _ HU) as B. destruct (st_s3 (u_set u)); [|congruence]. destruct B as (? & ? & _ & _ & ->). discriminate.
  - intros t mm y x b. exact (a_read2 u HU groups HG 0 (u_L0 u) V eq_refl t mm y x b).
Qed.

(** *** C02 and C12 *)
(** What a reader of a sharded array gets in general, from a shard that is full, or when the last shard was not left at a chunk boundary
    (or is full): of the chunks of one shard along the append dimension only the last one written is reachable, and
    it is found at the place of the first. *)
Theorem C12_only_the_last_chunk_of_a_shard_is_reachable : forall u groups,
  fair_use u -> whole_frames u groups -> st_version (u_set u) = 3 ->
  let n := zlen (List.concat groups) in
  let A := map d_array (u_mids u) in
  let C := d_chunk (u_d0 u) in let S := d_shard (u_d0 u) in
  forall t mm y x b,
    let shard := t / C / S in
    (shard + 1) * shard_period u <= n \/ n mod shard_period u = 0 \/ (u_bk u = None /\ n mod period u <> 0) ->
    0 <= t < ceil_div n (prodZ A) -> in_bounds A mm ->
    0 <= y < d_array (u_dy u) -> 0 <= x < d_array (u_dx u) -> 0 <= b < u_bpp u ->
    let chunks_in_shard := Z.min S (ceil_div n (period u) - shard * S) in
    read_v3 (stored (u_env u) (w_trace (after u groups)) (u_bk u)) (u_dec u) (u_root u ++ "/data/root/0")
            (map d_chunk (u_dims u)) (map d_shard (u_dims u)) (u_bpp u) (t :: mm ++ [y; x]) b
    = if (t / C) mod S =? 0
      then appended_byte (u_bpp u) A (d_array (u_dx u)) (List.concat groups) (t + (chunks_in_shard - 1) * C) mm y x b
      else 0.
Proof.
  intros u groups HU HG V n A C S t mm y x b. exact (a_read3 u HU groups HG 0 (u_L0 u) V eq_refl t mm y x b).
Qed.

(** With shards of one chunk along the append dimension, on files and on S3: frames of chunk rows that are full read back, whatever the number
    of frames; and the others, if the last row is finished *)
Theorem C14_v3_full_rows_partial : forall u groups,
  fair_use u -> whole_frames u groups -> st_version (u_set u) = 3 -> d_shard (u_d0 u) = 1 ->
  let A := map d_array (u_mids u) in
  let n := zlen (List.concat groups) in
  forall t mm y x b,
    (t / d_chunk (u_d0 u) + 1) * period u <= n \/ n mod period u = 0 \/ st_s3 (u_set u) = None ->
    0 <= t < ceil_div n (prodZ A) -> in_bounds A mm ->
    0 <= y < d_array (u_dy u) -> 0 <= x < d_array (u_dx u) -> 0 <= b < u_bpp u ->
    read_v3 (stored (u_env u) (w_trace (after u groups)) (u_bk u)) (u_dec u) (u_root u ++ "/data/root/0")
            (map d_chunk (u_dims u)) (map d_shard (u_dims u)) (u_bpp u) (t :: mm ++ [y; x]) b
    = appended_byte (u_bpp u) A (d_array (u_dx u)) (List.concat groups) t mm y x b.
Proof.
  intros u groups HU HG V H1 A n t mm y x b Hc Ht Hm Hy Hx Hb.
  assert (Hc' : (t / d_chunk (u_d0 u) / d_shard (u_d0 u) + 1) * shard_period u <= n \/ n mod shard_period u = 0 \/ (u_bk u = None /\ n mod period u <> 0)).
  { unfold shard_period. rewrite H1, Z.mul_1_r, Z.div_1_r. destruct Hc as [Hc|[Hc|Hc]]; auto. destruct (Z.eq_dec (n mod period u) 0); auto.
    pose proof (fu_bk _ HU) as B. rewrite Hc in B. auto. }
  rewrite (C12_only_the_last_chunk_of_a_shard_is_reachable u groups HU HG V t mm y x b Hc' Ht Hm Hy Hx Hb). fold n. subst n.
  rewrite H1, Z.mod_1_r, Z.div_1_r, Z.mul_1_r, Z.eqb_refl. f_equal. fold A.
  pose proof (fu_fits _ HU) as [? c0 q ? ? ? ? ?]. apply Forall_app in q as [q _].
  assert (PA : 0 < prodZ A). { apply Radix.prodZ_pos. apply Forall_map. eapply Forall_impl; [|exact q]. intros d (X & _). exact X. }
  assert (T : t / d_chunk (u_d0 u) < ceil_div (zlen (List.concat groups)) (period u)).
  { unfold ceil_div in *. unfold period. fold A. set (n := zlen (List.concat groups)) in *. set (p := prodZ A) in *. set (c := d_chunk (u_d0 u)) in *.
    assert (PC : 0 < c * p) by (apply Z.mul_pos_pos; lia).
    apply Z.lt_le_trans with (((n + p - 1) / p + c - 1) / c).
    - assert (t + c <= (n + p - 1) / p + c - 1) by lia. apply Z.lt_le_trans with ((t + c) / c).
      + replace (t + c) with (t + 1 * c) by lia. rewrite Z.div_add by lia. lia.
      + apply Z.div_le_mono; lia.
    - replace ((n + p - 1) / p + c - 1) with ((n + p - 1) / p + (c - 1)) by lia. rewrite <- Z.div_add by lia. rewrite Z.div_div by lia. rewrite (Z.mul_comm p c). apply Z.div_le_mono; [lia|]. lia. }
  rewrite Z.min_l by lia. lia.
Qed.

(** Full statement (C02): the theorem without the hypothesis d_shard (u_d0 u) = 1. It is false: C12_refuted. *)
Theorem C02_v3_filesystem_round_trip_partial : forall u groups,
  fair_use u -> whole_frames u groups -> st_version (u_set u) = 3 -> st_s3 (u_set u) = None ->
  d_shard (u_d0 u) = 1 ->
  succeeds u groups /\ reads_back_v3 u groups.
Proof.
  intros u groups HU HG V S3 H1. split; [exact (a_succeeds u HU groups HG)|]. unfold reads_back_v3. cbv zeta. intros t mm y x b Ht Hm Hy Hx Hb. apply (C14_v3_full_rows_partial u groups HU HG V H1); auto.
Qed.

(** Full statement (C14 for v3): without the last two hypotheses. It is false: C14_v3_s3_refuted. *)
Theorem C14_v3_s3_round_trip_partial : forall u groups,
  fair_use u -> whole_frames u groups -> st_version (u_set u) = 3 -> st_s3 (u_set u) <> None ->
  d_shard (u_d0 u) = 1 -> zlen (List.concat groups) mod period u = 0 ->
  succeeds u groups /\ u_bk u <> None /\ reads_back_v3 u groups.
Proof.
  intros u groups HU HG V S3 H1 H0. split; [exact (a_succeeds u HU groups HG)|]. split.
  - pose proof (fu_bk _ HU) as B. destruct (st_s3 (u_set u)); [|congruence]. destruct B as (? & ? & _ & _ & ->). discriminate.
  - unfold reads_back_v3. cbv zeta. intros t mm y x b Ht Hm Hy Hx Hb. apply (C14_v3_full_rows_partial u groups HU HG V H1); auto.
Qed.

(** *** C04 for whole frames *)
Theorem C04_bytes_out_whole_frames_partial : forall u groups,
  fair_use u -> whole_frames u groups ->
  snd (session (u_env u) (u_set u) (calls groups) (u_world u))
  = Ok (Some (map (fun c => (st_success, Some (zlen c))) (calls groups), true)).
Proof. intros u groups HU HG. exact (a_succeeds u HU groups HG). Qed.

(** *** C06 *)
(** [s0] is the smallest number of append positions that holds [n] frames, [p] frames each *)
Definition smallest (n p s0 : Z) : Prop := (s0 - 1) * p < n <= s0 * p.
Lemma ceil_smallest n p : 0 < n -> 0 < p -> smallest n p (ceil_div n p).
Proof. intros. unfold smallest, ceil_div. pose proof (Z.div_mod (n + p - 1) p). pose proof (Z.mod_pos_bound (n + p - 1) p). nia. Qed.
Lemma jints_cons l : jval (jints l) = vints l. Proof. apply jval_ints. Qed.

Lemma prodA u : fair_use u -> 0 < prodZ (map d_array (u_mids u)).
Proof.
  intros HU. pose proof (fu_fits _ HU) as [? c0 q ? ? ? ? ?]. apply Forall_app in q as [q _].
  apply Radix.prodZ_pos. apply Forall_map. eapply Forall_impl; [|exact q]. intros d (X & _). exact X.
Qed.

Theorem C06_v2_shape : forall u groups,
  fair_use u -> whole_frames u groups -> st_version (u_set u) = 2 ->
  let n := zlen (List.concat groups) in
  0 < n ->
  exists c v s0, key u groups "0/.zarray" = Some c /\ json_of c = Some v /\
    field "shape" v = Some (vints (s0 :: map d_array (u_mids u ++ [u_dy u; u_dx u]))) /\
    smallest n (prodZ (map d_array (u_mids u))) s0.
Proof.
  intros u groups HU HG V n Hn.
  destruct (a_doc2 u HU groups HG 0 (u_L0 u) V eq_refl) as (c & K & J). { intros X. unfold n in Hn. cbn [u_frames] in X. rewrite X in Hn. vm_compute in Hn. discriminate. }
  exists c. eexists. exists (ceil_div n (prodZ (map d_array (u_mids u)))). split; [exact K|]. split; [exact J|]. split; [|apply ceil_smallest; auto using prodA].
  cbn [u_frames]. unfold zarray_json. cbn [jval map fst snd field lookup]. rewrite !jints_cons. reflexivity.
Qed.
(** Full statement: for every u_d0 and n > 0. False if the shards span several append chunks (C13_refuted). *)
Theorem C06_v3_shape_partial : forall u groups,
  fair_use u -> whole_frames u groups -> st_version (u_set u) = 3 ->
  let n := zlen (List.concat groups) in
  0 < n -> d_shard (u_d0 u) = 1 \/ n mod period u <> 0 \/ n mod shard_period u = 0 ->
  exists c v s0, key u groups "meta/root/0.array.json" = Some c /\ json_of c = Some v /\
    field "shape" v = Some (vints (s0 :: map d_array (u_mids u ++ [u_dy u; u_dx u]))) /\
    smallest n (prodZ (map d_array (u_mids u))) s0.
Proof.
  intros u groups HU HG V n Hn Hc.
  assert (PP : 0 < shard_period u).
  { unfold shard_period, period. pose proof (fu_fits _ HU) as [? c0 ? ? ? ? ? ?]. destruct (fu_shards _ HU V) as [[s0 ? ? ? ?] _]. pose proof (prodA u HU). apply Z.mul_pos_pos; [apply Z.mul_pos_pos; lia|lia]. }
  destruct (a_doc3 u HU groups HG 0 (u_L0 u) n V eq_refl) as (c & K & J).
  { cbn [u_frames]. change (l_P (u_L0 u)) with (period u). change (l_PP (u_L0 u)) with (shard_period u). fold n.
    assert (X : n mod shard_period u = 0 -> n mod period u = 0 /\ shard_period u <= n /\ n = n / shard_period u * shard_period u).
    { intros X. pose proof (Z.div_mod n (shard_period u) ltac:(lia)) as DM. rewrite X in DM. split; [|split; [|lia]].
      - unfold shard_period in DM. rewrite DM, Z.add_0_r. rewrite Z.mul_comm, Z.mul_assoc, (Z.mul_comm _ (period u)), <- Z.mul_assoc, Z.mul_comm. apply Z.mod_mul.
        intros P0. unfold shard_period in PP. rewrite P0 in PP. lia.
      - destruct (Z.le_gt_cases (shard_period u) n) as [L|L]; [exact L|]. rewrite (Z.mod_small n) in X by lia. lia. }
    destruct Hc as [Hc|[Hc|Hc]]; [|left; auto|right; auto]. destruct (Z.eq_dec (n mod period u) 0) as [Z0|Z0]; [right|left; auto].
    apply X. unfold shard_period. rewrite Hc, Z.mul_1_r. exact Z0. }
  exists c. eexists. exists (ceil_div n (prodZ (map d_array (u_mids u)))). split; [exact K|]. split; [exact J|]. split; [|apply ceil_smallest; auto using prodA].
  unfold array_json. cbn [jval map fst snd field lookup]. rewrite !jints_cons. reflexivity.
Qed.

(** *** Where the full statements fail *)
(** C12 and C02: 12 frames fill one shard of two append chunks; the reader finds another frame's data at t = 0, and nothing
    at t = 2. *)
Theorem C12_refuted : exists u groups,
  fair_use u /\ whole_frames u groups /\ st_version (u_set u) = 3 /\ st_s3 (u_set u) = None /\
  succeeds u groups /\ ~ reads_back_v3 u groups.
Proof.
  exists (ex_two false), (ex_groups 1 12). split; [apply ex_two_fair|]. split; [apply ex_frames_whole; lia|]. split; [reflexivity|]. split; [reflexivity|].
  split; [apply a_succeeds; [apply ex_two_fair|apply ex_frames_whole; lia]|].
  intros H. specialize (H 0 [0] 0 0 0). revert H. vm_compute. intros H. discriminate H; repeat split; intros X; discriminate X.
Qed.

(** *** C13 *)
(** the metadata declares all frames, and everything can be read *)
Theorem C13_destroy_makes_readable_partial : forall u groups,
  fair_use u -> whole_frames u groups -> st_version (u_set u) = 3 -> st_s3 (u_set u) = None ->
  d_shard (u_d0 u) = 1 ->
  let n := zlen (List.concat groups) in
  0 < n ->
  (exists c v s0, key u groups "meta/root/0.array.json" = Some c /\ json_of c = Some v /\
    field "shape" v = Some (vints (s0 :: map d_array (u_mids u ++ [u_dy u; u_dx u]))) /\
    smallest n (prodZ (map d_array (u_mids u))) s0) /\
  reads_back_v3 u groups.
Proof.
  intros u groups HU HG V S3 H1 n Hn. split; [apply C06_v3_shape_partial; auto|]. apply C02_v3_filesystem_round_trip_partial; auto.
Qed.
(** 6 frames end at a chunk boundary inside a shard: no array metadata, and the shard has no index (its last 16
    bytes are chunk data), although everything reports success. *)
Theorem C13_refuted : exists u groups,
  fair_use u /\ whole_frames u groups /\ st_version (u_set u) = 3 /\ st_s3 (u_set u) = None /\
  succeeds u groups /\ List.concat groups <> [] /\
  key u groups "meta/root/0.array.json" = None /\
  exists file, key u groups "data/root/0/c0/0/0/0" = Some file /\ ~ index_ok file (prodZ (map d_shard (u_dims u))).
Proof.
  exists (ex_two false), (ex_groups 1 6). split; [apply ex_two_fair|]. split; [apply ex_frames_whole; lia|]. split; [reflexivity|]. split; [reflexivity|].
  split; [apply a_succeeds; [apply ex_two_fair|apply ex_frames_whole; lia]|]. split; [discriminate|]. split; [vm_compute; reflexivity|].
  eexists. split; [vm_compute; reflexivity|]. intros (_ & H & _). specialize (H 0 ltac:(vm_compute; split; [intros X; discriminate X|reflexivity])).
  destruct H as [H|H]; vm_compute in H; [discriminate H|]. destruct H as (_ & _ & H). apply H. reflexivity.
Qed.

(** *** C14 for v3: the last, partly filled shards are never uploaded *)
Theorem C14_v3_s3_refuted : exists u groups,
  fair_use u /\ whole_frames u groups /\ st_version (u_set u) = 3 /\ st_s3 (u_set u) <> None /\ d_shard (u_d0 u) = 1 /\
  succeeds u groups /\ (exists c, key u groups "meta/root/0.array.json" = Some c) /\
  key u groups "data/root/0/c1/0/0/0" = None /\ ~ reads_back_v3 u groups.
Proof.
  exists (ex_comp 3 true false), (ex_groups 1 8). split; [apply ex_comp_fair; auto|]. split; [apply ex_frames_whole; lia|]. split; [reflexivity|]. split; [discriminate|]. split; [reflexivity|].
  split; [apply a_succeeds; [apply ex_comp_fair; auto|apply ex_frames_whole; lia]|]. split; [eexists; vm_compute; reflexivity|]. split; [vm_compute; reflexivity|].
  intros H. specialize (H 2 [0] 0 0 0). revert H. vm_compute. intros H. discriminate H; repeat split; intros X; discriminate X.
Qed.

(** *** C06 with no frames: no array metadata at all is written; with 0 frames the shape is not declared *)
Theorem C06_no_frames : exists u,
  fair_use u /\ whole_frames u [] /\ succeeds u [] /\ key u [] "0/.zarray" = None.
Proof.
  exists (ex_plain 2 false). split; [apply ex_plain_fair; auto|]. assert (W : whole_frames (ex_plain 2 false) []) by (split; [constructor|vm_compute; reflexivity]).
  split; [exact W|]. split; [apply a_succeeds; auto; apply ex_plain_fair; auto|]. vm_compute. reflexivity.
Qed.

(** *** The hypotheses can be met *)
Example C01_hypotheses : let u := ex_comp 2 false true in let groups := ex_groups 1 9 in
  fair_use u /\ whole_frames u groups /\ st_version (u_set u) = 2 /\ st_s3 (u_set u) = None /\ zlen (List.concat groups) = 9.
Proof. split; [apply ex_comp_fair; auto|]. split; [apply ex_frames_whole; lia|]. repeat split; reflexivity. Qed.
Example C14_v2_hypotheses : let u := ex_comp 2 true true in let groups := ex_groups 1 9 in
  fair_use u /\ whole_frames u groups /\ st_version (u_set u) = 2 /\ st_s3 (u_set u) <> None.
Proof. split; [apply ex_comp_fair; auto|]. split; [apply ex_frames_whole; lia|]. repeat split; discriminate. Qed.
Example C02_C13_hypotheses : let u := ex_plain 3 false in let groups := ex_groups 2 9 in
  fair_use u /\ whole_frames u groups /\ st_version (u_set u) = 3 /\ st_s3 (u_set u) = None /\ d_shard (u_d0 u) = 1 /\ zlen (List.concat groups) = 9.
Proof. split; [apply ex_plain_fair; auto|]. split; [apply ex_frames_whole; lia|]. repeat split; reflexivity. Qed.
Example C14_v3_hypotheses : let u := ex_plain 3 true in let groups := ex_groups 2 12 in
  fair_use u /\ whole_frames u groups /\ st_version (u_set u) = 3 /\ st_s3 (u_set u) <> None /\ d_shard (u_d0 u) = 1 /\ zlen (List.concat groups) mod period u = 0.
Proof. split; [apply ex_plain_fair; auto|]. split; [apply ex_frames_whole; lia|]. repeat split; try discriminate; reflexivity. Qed.
Example C12_hypotheses : let u := ex_two false in let groups := ex_groups 1 9 in
  fair_use u /\ whole_frames u groups /\ st_version (u_set u) = 3 /\
  (zlen (List.concat groups) mod shard_period u = 0 \/ (u_bk u = None /\ zlen (List.concat groups) mod period u <> 0)).
Proof. split; [apply ex_two_fair; auto|]. split; [apply ex_frames_whole; lia|]. split; [reflexivity|]. right. split; [reflexivity|]. vm_compute. discriminate. Qed.
Example C06_hypotheses : let u := ex_two false in let groups := ex_groups 1 9 in
  fair_use u /\ whole_frames u groups /\ st_version (u_set u) = 3 /\ 0 < zlen (List.concat groups) /\ zlen (List.concat groups) mod period u <> 0.
Proof. split; [apply ex_two_fair; auto|]. split; [apply ex_frames_whole; lia|]. split; [reflexivity|]. split; vm_compute; [reflexivity|discriminate]. Qed.

Print Assumptions C01_v2_filesystem_round_trip.
Print Assumptions C14_v2_s3_round_trip.
Print Assumptions C12_only_the_last_chunk_of_a_shard_is_reachable.
Print Assumptions C14_v3_full_rows_partial.
Print Assumptions C02_v3_filesystem_round_trip_partial.
Print Assumptions C14_v3_s3_round_trip_partial.
Print Assumptions C04_bytes_out_whole_frames_partial.
Print Assumptions C06_v2_shape.
Print Assumptions C06_v3_shape_partial.
Print Assumptions C12_refuted.
Print Assumptions C13_destroy_makes_readable_partial.
Print Assumptions C13_refuted.
Print Assumptions C14_v3_s3_refuted.
Print Assumptions C06_no_frames.
