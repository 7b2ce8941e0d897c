(** C63: what was acknowledged is durable. S3 may refuse any of the later requests, the process may be killed at any later moment:
    the objects of the complete rows of chunks (full shards in Zarr v3) stay in the bucket, right in every byte. *)
Require Import ZArith List Bool String Ascii Lia.
Require Import Verif.Base Verif.Spec Verif.Dim Verif.Limits Verif.World Verif.Stream Verif.Api Verif.SettingsSpec Verif.SessionSpec Verif.PyramidSpec Verif.StoreSpec Verif.GridSpec Verif.OnceSpec Verif.RunSpec Verif.AnswerSpec.
Require Verif.DimProofs Verif.Radix Verif.RepProofs Verif.RepStream Verif.SessionProofs Verif.ChunkStore Verif.StoreProofs Verif.LevelProofs Verif.OpenProofs Verif.OnceProofs Verif.PropsOnce Verif.PropsOrder Verif.PropsGrid Verif.PropsChunks Verif.AnswerProofs Verif.AnswerStream Verif.AnswerRun Verif.Examples Verif.ExamplesUse.
Import ListNotations.
Open Scope string_scope. Open Scope list_scope. Open Scope Z_scope.

Lemma session_trace E st calls w s1 w1 s2 w2 rs : api_create E (Some st) w = (w1, Ok (Some s1)) -> api_appends E calls (s1, w1) = ((s2, w2), Ok rs) ->
  exists y, w_trace (fst (session E st calls w)) = w_trace w2 ++ y.
Proof.
  intros C A. unfold session, bind. rewrite C. cbn. rewrite A. destruct (api_destroy E (s2, w2)) as [[s3 w3] r] eqn:D. destruct (OpenProofs.destroy_open _ _ _ _ _ _ D) as (e & T & _). exists e. destruct r; exact T.
Qed.
Lemma other_object E obj fault answer conns b k : forall tr, object_of (AnswerProofs.other E (fun _ _ => None) fault answer conns) tr b k <> None ->
  object_of (AnswerProofs.other E obj fault answer conns) tr b k = object_of (AnswerProofs.other E (fun _ _ => None) fault answer conns) tr b k.
Proof.
  intros tr. unfold object_of. induction (rev tr) as [|e l IH]; intros H; [destruct H; reflexivity|]. destruct e; cbn [object_rev] in *; auto.
  all: destruct (String.eqb b _ && String.eqb k _); auto.
Qed.
Lemma same_rules E E' tr b k : e_obj0 E = e_obj0 E' -> object_of E tr b k = object_of E' tr b k.
Proof. intros H. unfold object_of. induction (rev tr) as [|e l IH]; cbn; [rewrite H; reflexivity|]. destruct e; rewrite ?IH; reflexivity. Qed.
Lemma given_app l l' : bytes_given (l ++ l') = bytes_given l + bytes_given l'.
Proof. induction l as [|d l IH]; cbn; [reflexivity|]. unfold bytes_given in *. rewrite IH. lia. Qed.
Lemma given_nonneg l : 0 <= bytes_given l.
Proof. induction l as [|d l IH]; cbn; [lia|]. unfold bytes_given in *. pose proof (Radix.zlen_nonneg d). lia. Qed.

(** An object that the run has put into the bucket is what the undisturbed run leaves there, and stays. *)
Lemma stays u groups answer b n k0 s2 w2 more k seen later x :
  fair_use u -> whole_frames u groups -> u_bk u = Some b -> w_trace (u_world u) = [] ->
  bytes_given (calls groups ++ more) + u_frame u * (zlen (calls groups ++ more) + 1) < 2 ^ 32 * u_frame u ->
  running (AnswerRun.moved u n k0) groups s2 w2 -> n <> 0%nat ->
  object_of (u_env (AnswerRun.moved u n k0)) (w_trace w2) b k <> None ->
  w_trace (fst (session (answering (u_env u) answer) (u_set u) (calls groups ++ more) (u_world u))) = seen ++ later -> seen = w_trace w2 ++ x ->
  object_of (u_env u) seen b k = store (AnswerRun.moved u n k0) groups k.
Proof.
  intros U W B T N R Hn H S X. set (v := AnswerRun.moved u n k0) in *. pose proof (PropsOrder.fair_frame u U) as HF.
  assert (U1 : uploads b k (w_trace w2) <> 0). { intros Z0. apply H. exact (PropsOnce.same_object (u_env v) b k [] (w_trace w2) Z0). }
  assert (F0 : 0 < u_frame u) by (destruct HF as (?&?&?&?&?&?&?&?&?&?&?&?&?); lia).
  (* the undisturbed session *)
  destruct R as (s1 & w1 & C & A). destruct (session_trace _ _ _ _ _ _ _ _ _ C A) as (y & Y).
  assert (B2 : bytes_given (calls groups) + u_frame u * (zlen (calls groups) + 1) < 2 ^ 32 * u_frame u).
  { rewrite given_app in N. pose proof (given_nonneg more). rewrite Radix.zlen_app in N. pose proof (Radix.zlen_nonneg more). nia. }
  pose proof (PropsOnce.C59_uploaded_once (u_env v) (u_set v) (calls groups) (u_frame u) b k (u_world v) HF B2) as O1.
  rewrite Y in O1. change (w_trace (u_world v)) with (w_trace (u_world u)) in O1. rewrite T, OnceProofs.uploads_app in O1. change (uploads b k []) with 0 in O1.
  pose proof (PropsOnce.uploads_nonneg b k (w_trace w2)). pose proof (PropsOnce.uploads_nonneg b k y).
  (* the session with refused requests *)
  pose proof (PropsOnce.C59_uploaded_once (answering (u_env u) answer) (u_set u) (calls groups ++ more) (u_frame u) b k (u_world u) HF N) as O2.
  rewrite S, T, OnceProofs.uploads_app, X, OnceProofs.uploads_app in O2. change (uploads b k []) with 0 in O2.
  pose proof (PropsOnce.uploads_nonneg b k x). pose proof (PropsOnce.uploads_nonneg b k later).
  unfold store, stored. change (u_bk v) with (u_bk u). rewrite B. unfold after. rewrite Y, (PropsOnce.same_object (u_env v) b k (w_trace w2) y) by lia.
  rewrite X, (PropsOnce.same_object (u_env u) b k (w_trace w2) x) by lia.
  transitivity (object_of (AnswerProofs.other (u_env u) (e_obj0 (u_env u)) (e_fault (u_env u)) (e_s3 (u_env u)) n) (w_trace w2) b k); [apply same_rules; reflexivity|].
  apply other_object. exact H.
Qed.

(** Version 2. All calls of [groups] succeeded, and so did one more call, whatever it appended: then every row of chunks that [groups] completes
    is in the bucket, at every level, and stays there from then on. Requests to S3 may be refused at any time. *)
Theorem C63_v2_s3_acknowledged : forall u groups d more answer b w1 s1 w2 s2 rs s3 r,
  fair_use u -> whole_frames u groups -> st_version (u_set u) = 2 -> u_bk u = Some b -> w_trace (u_world u) = [] ->
  bytes_given (calls groups ++ d :: more) + u_frame u * (zlen (calls groups ++ d :: more) + 1) < 2 ^ 32 * u_frame u ->
  let E := answering (u_env u) answer in
  api_create E (Some (u_set u)) (u_world u) = (w1, Ok (Some s1)) ->
  api_appends E (calls groups) (s1, w1) = ((s2, w2), Ok rs) -> Forall (fun r => fst r = st_success) rs ->
  api_append E (Some d) true (s2, w2) = (s3, Ok r) -> fst r = st_success ->
  exists G, level_frames u (List.concat groups) G /\
    forall i q cc seen later x, is_level u i -> 0 <= q -> (q + 1) * lv_period u i <= zlen (G i) -> in_bounds (map nch (lv_inner u i)) cc ->
      w_trace (fst (session E (u_set u) (calls groups ++ d :: more) (u_world u))) = seen ++ later -> seen = w_trace w2 ++ x ->
      exists raw, object_of (u_env u) seen b (path_of_coords (u_root u ++ "/" ++ dec (Z.of_nat i)) (q :: cc)) = Some raw /\
        raw = u_enc u (u_dec u raw) /\
        chunk_holds (u_bpp u) (lv_A u i) (lv_H u i) (lv_W u i) (G i) (map d_chunk (lv_dims u i)) (q :: cc) (u_dec u raw).
Proof.
  intros u groups d more answer b w1 s1 w2 s2 rs s3 r U W V B T N E C A RS A3 R3.
  assert (E2 : w_err w2 = ""). { destruct (string_dec (w_err w2) "") as [X|X]; [exact X|]. rewrite (RepStream.append_refused E d s2 w2 X) in A3. injection A3 as _ <-. discriminate R3. }
  assert (NS : st_s3 (u_set u) <> None). { pose proof (fu_bk _ U) as BK. destruct (st_s3 (u_set u)); [discriminate|]. rewrite B in BK. discriminate. }
  assert (HA : Forall RepProofs.arr (s_writers s1)).
  { pose proof C as C'. unfold api_create, catchM, bind in C'. destruct (new_stream E (Some (u_set u)) (u_world u)) as [w1' [s|m| |]] eqn:X; try discriminate. injection C' as <- <-. exact (RepStream.new_arr E (u_set u) (u_world u) w1' s V NS X). }
  pose proof (RepStream.t_appends E (calls groups) (s1, w1) HA) as (_ & _ & K3 & _ & K5). rewrite A in K3, K5. cbn [fst snd] in K3, K5.
  assert (E1 : w_err w1 = "") by (destruct (string_dec (w_err w1) "") as [X|X]; [exact X|destruct (K3 X E2)]).
  assert (NR : ~ RepProofs.refused_in E (w_tick w1) (w_tick w2)).
  { intros Q. destruct (K5 Q) as [X|X]; [exact (X E2)|]. specialize (X rs eq_refl). apply Exists_exists in X as (y & Y1 & Y2). rewrite Forall_forall in RS. specialize (RS y Y1). unfold RepStream.told in Y2. rewrite RS in Y2. discriminate. }
  destruct (AnswerRun.answered_run u groups answer b w1 s1 w2 s2 rs U W B C A (or_introl E1) NR) as (n & k & Hn & R). set (v := AnswerRun.moved u n k) in *.
  pose proof (AnswerRun.moved_fair u n k U Hn) as Uv. fold v in Uv.
  exists (SessionProofs.u_frames u (List.concat groups)). split; [apply ChunkStore.u_levels; [exact U|apply PropsChunks.frames_whole; exact W]|].
  intros i q cc seen later x Hi Hq HG Hcc S X.
  pose proof (AnswerRun.there_v2 v Uv groups W s2 w2 R b i q cc V B Hi Hq HG Hcc) as P.
  rewrite (stays u groups answer b n k s2 w2 (d :: more) (path_of_coords (u_root u ++ "/" ++ dec (Z.of_nat i)) (q :: cc)) seen later x U W B T N R Hn P S X).
  assert (HP : 0 < lv_period u i).
  { destruct (proj1 (ChunkStore.is_level_nth u U i) Hi) as [L HL]. destruct (ChunkStore.level_names u U i L HL) as (_ & _ & _ & _ & _ & E6 & _). rewrite <- E6. destruct (StoreProofs.a_ok u U i L HL) as [OK _].
    unfold LevelProofs.l_P. apply Z.mul_pos_pos; [pose proof (fit_c0 _ _ _ _ _ (LevelProofs.lo_f _ _ _ _ _ _ OK)); lia|apply (StoreProofs.prodA_pos u U i L HL)]. }
  refine (ChunkStore.s_level_v2 v Uv groups W i V Hi q cc Hq _ Hcc).
  change (SessionProofs.u_frames v (List.concat groups) i) with (SessionProofs.u_frames u (List.concat groups) i). change (lv_period v i) with (lv_period u i). lia.
Qed.

(** Version 3 does not report refused requests (C22_v3_refuted), so here it is assumed that the requests were answered up to some moment
    between two calls: then every full shard is in the bucket, and stays there whatever is refused later. *)
Theorem C63_v3_s3_answered_partial : forall u groups more answer b w1 s1 w2 s2 rs,
  fair_use u -> whole_frames u groups -> st_version (u_set u) = 3 -> u_bk u = Some b -> w_trace (u_world u) = [] ->
  bytes_given (calls groups ++ more) + u_frame u * (zlen (calls groups ++ more) + 1) < 2 ^ 32 * u_frame u ->
  let E := answering (u_env u) answer in
  api_create E (Some (u_set u)) (u_world u) = (w1, Ok (Some s1)) ->
  api_appends E (calls groups) (s1, w1) = ((s2, w2), Ok rs) ->
  (forall t, (t < w_tick w2)%nat -> answer t = true) ->
  exists G, level_frames u (List.concat groups) G /\
    forall i s sc seen later x, is_level u i -> 0 <= s -> (s + 1) * lv_shard_period u i <= zlen (G i) -> in_bounds (map nsh (lv_inner u i)) sc ->
      w_trace (fst (session E (u_set u) (calls groups ++ more) (u_world u))) = seen ++ later -> seen = w_trace w2 ++ x ->
      let shards := map d_shard (lv_inner u i) in
      let N := prodZ (map d_shard (lv_dims u i)) in
      exists file, object_of (u_env u) seen b (shard_key (u_root u ++ "/data/root/" ++ dec (Z.of_nat i)) (s :: sc)) = Some file /\
        index_ok file N /\
        forall cc, in_bounds (map nch (lv_inner u i)) cc -> zip_with Z.div cc shards = sc ->
          exists raw,
            shard_chunk file N (ravel (map d_shard (lv_dims u i)) (0 :: zip_with Z.modulo cc shards)) = Some raw /\
            raw = u_enc u (u_dec u raw) /\
            chunk_holds (u_bpp u) (lv_A u i) (lv_H u i) (lv_W u i) (G i) (map d_chunk (lv_dims u i))
              (((s + 1) * d_shard (at_level i (u_d0 u)) - 1) :: cc) (u_dec u raw).
Proof.
  intros u groups more answer b w1 s1 w2 s2 rs U W V B T N E C A H.
  pose proof (AnswerStream.t_api_appends E (e_obj0 E) (e_fault E) (e_s3 E) (e_conns E) (calls groups) (s1, w1)) as [TT _].
  change (AnswerProofs.other E (e_obj0 E) (e_fault E) (e_s3 E) (e_conns E)) with E in TT. rewrite A in TT. cbn [fst snd] in TT.
  assert (N1 : ~ RepProofs.refused_in E (w_tick (u_world u)) (w_tick w1)) by (intros (t & T1 & T2); cbn in T2; rewrite H in T2 by lia; discriminate).
  assert (N2 : ~ RepProofs.refused_in E (w_tick w1) (w_tick w2)) by (intros (t & T1 & T2); cbn in T2; rewrite H in T2 by lia; discriminate).
  destruct (AnswerRun.answered_run u groups answer b w1 s1 w2 s2 rs U W B C A (or_intror N1) N2) as (n & k & Hn & R). set (v := AnswerRun.moved u n k) in *.
  pose proof (AnswerRun.moved_fair u n k U Hn) as Uv. fold v in Uv.
  exists (SessionProofs.u_frames u (List.concat groups)). split; [apply ChunkStore.u_levels; [exact U|apply PropsChunks.frames_whole; exact W]|].
  intros i s sc seen later x Hi Hs HG Hsc S X shards N0.
  pose proof (AnswerRun.there_v3 v Uv groups W s2 w2 R b i s sc V B Hi Hs HG Hsc) as P.
  rewrite (stays u groups answer b n k s2 w2 more (shard_key (u_root u ++ "/data/root/" ++ dec (Z.of_nat i)) (s :: sc)) seen later x U W B T N R Hn P S X).
  assert (HP : 0 < lv_period u i /\ 0 < d_shard (at_level i (u_d0 u))).
  { destruct (proj1 (ChunkStore.is_level_nth u U i) Hi) as [L HL]. destruct (ChunkStore.level_names u U i L HL) as (_ & _ & _ & _ & _ & E6 & _ & E8). rewrite <- E6, <- E8. destruct (StoreProofs.a_ok u U i L HL) as [OK _].
    rewrite V in OK. destruct (LevelProofs.lo_s _ _ _ _ _ _ OK eq_refl) as [Hsh _]. split; [|exact (fit_s0 _ _ _ _ Hsh)].
    unfold LevelProofs.l_P. apply Z.mul_pos_pos; [pose proof (fit_c0 _ _ _ _ _ (LevelProofs.lo_f _ _ _ _ _ _ OK)); lia|apply (StoreProofs.prodA_pos u U i L HL)]. }
  destruct HP as [HP HS].
  assert (HPP : 0 < lv_shard_period u i) by (unfold lv_shard_period; nia).
  destruct (ChunkStore.s_level_v3 v Uv groups W i V Hi s sc (or_introl HG) Hs ltac:(change (SessionProofs.u_frames v (List.concat groups) i) with (SessionProofs.u_frames u (List.concat groups) i); change (lv_shard_period v i) with (lv_shard_period u i); lia) Hsc) as (file & F1 & F2 & F3).
  exists file. split; [exact F1|]. split; [exact F2|]. intros cc Hcc Hd. destruct (F3 cc Hcc Hd) as (raw & G1 & G2 & G3). exists raw. split; [exact G1|]. split; [exact G2|].
  replace ((s + 1) * d_shard (at_level i (u_d0 u)) - 1) with (s * d_shard (at_level i (u_d0 v)) + Z.min (d_shard (at_level i (u_d0 v))) (ceil_div (zlen (SessionProofs.u_frames v (List.concat groups) i)) (lv_period v i) - s * d_shard (at_level i (u_d0 v))) - 1); [exact G3|].
  change (u_d0 v) with (u_d0 u). change (lv_period v i) with (lv_period u i). change (SessionProofs.u_frames v (List.concat groups) i) with (SessionProofs.u_frames u (List.concat groups) i).
  assert (Q : (s + 1) * d_shard (at_level i (u_d0 u)) <= ceil_div (zlen (SessionProofs.u_frames u (List.concat groups) i)) (lv_period u i)).
  { unfold ceil_div. apply Z.div_le_lower_bound; [exact HP|]. unfold lv_shard_period in HG. clear - HG HP. nia. }
  rewrite Z.min_l by lia. lia.
Qed.

(** *** The hypotheses can be met: six frames in three calls complete the first row (of chunks, of shards); then the calls go on, and a later request is refused *)
Definition dur_use (v : Z) : use := ExamplesUse.ex_use v true None false dt_uint16 2 (mkdim "t" ty_time 0 2 1).
Definition dur_groups : list (list (list Z)) := ExamplesUse.ex_groups 2 6.
Definition dur_env (v : Z) (k : nat) : env := answering (u_env (dur_use v)) (fun t => Nat.ltb t k).
Definition dur_more : list (list Z) := [zrep 5 140; zrep 6 280].
Lemma dur_run v k : let E := dur_env v k in
  match api_create E (Some (u_set (dur_use v))) (u_world (dur_use v)) with
  | (w1, Ok (Some s1)) => match api_appends E (calls dur_groups) (s1, w1) with
      | ((s2, w2), Ok rs) => match api_append E (Some (zrep 5 140)) true (s2, w2) with
          | ((s3, w3), Ok r) => (forallb (fun r => fst r =? st_success) rs && (fst r =? st_success)) && (Nat.leb (w_tick w2) k && Nat.ltb k (w_tick (fst (session E (u_set (dur_use v)) (calls dur_groups ++ dur_more) (u_world (dur_use v)))))) = true
          | _ => False end
      | _ => False end
  | _ => False end ->
  exists w1 s1 w2 s2 rs s3 r,
    api_create E (Some (u_set (dur_use v))) (u_world (dur_use v)) = (w1, Ok (Some s1)) /\
    api_appends E (calls dur_groups) (s1, w1) = ((s2, w2), Ok rs) /\ Forall (fun r => fst r = st_success) rs /\
    api_append E (Some (zrep 5 140)) true (s2, w2) = (s3, Ok r) /\ fst r = st_success /\
    (forall t, (t < w_tick w2)%nat -> Nat.ltb t k = true) /\ e_s3 E k = false /\
    (k < w_tick (fst (session E (u_set (dur_use v)) (calls dur_groups ++ dur_more) (u_world (dur_use v)))))%nat.
Proof.
  cbv zeta. destruct (api_create _ _ _) as [w1 [[s1|]|m| |]] eqn:C; try contradiction. destruct (api_appends _ _ _) as [[s2 w2] [rs|m| |]] eqn:A; try contradiction. destruct (api_append _ _ _ _) as [[s3 w3] [r|m| |]] eqn:B; try contradiction.
  intros X. apply andb_prop in X as [X1 X2]. apply andb_prop in X1 as [X1 X3]. apply andb_prop in X2 as [X2 X4]. apply Nat.leb_le in X2. apply Nat.ltb_lt in X4. apply Z.eqb_eq in X3. rewrite forallb_forall in X1.
  do 7 eexists. split; [reflexivity|]. split; [exact A|]. split; [apply Forall_forall; intros y Y; apply Z.eqb_eq, X1; exact Y|]. split; [exact B|]. split; [exact X3|]. split; [intros t T; apply Nat.ltb_lt; lia|]. split; [apply Nat.ltb_irrefl|exact X4].
Qed.
Example C63_hypotheses : forall v k, (v = 2 /\ k = 24%nat) \/ (v = 3 /\ k = 15%nat) ->
  let u := dur_use v in let E := dur_env v k in
  fair_use u /\ whole_frames u dur_groups /\ st_version (u_set u) = v /\ u_bk u = Some "bucket" /\ w_trace (u_world u) = [] /\
  bytes_given (calls dur_groups ++ dur_more) + u_frame u * (zlen (calls dur_groups ++ dur_more) + 1) < 2 ^ 32 * u_frame u /\
  zlen (List.concat dur_groups) = 6 /\ lv_period u 0 = 6 /\ lv_shard_period u 0 = 6 /\
  exists w1 s1 w2 s2 rs s3 r,
    api_create E (Some (u_set u)) (u_world u) = (w1, Ok (Some s1)) /\
    api_appends E (calls dur_groups) (s1, w1) = ((s2, w2), Ok rs) /\ Forall (fun r => fst r = st_success) rs /\
    api_append E (Some (zrep 5 140)) true (s2, w2) = (s3, Ok r) /\ fst r = st_success /\
    (forall t, (t < w_tick w2)%nat -> Nat.ltb t k = true) /\ e_s3 E k = false /\
    (k < w_tick (fst (session E (u_set u) (calls dur_groups ++ dur_more) (u_world u))))%nat.
Proof.
  intros v k H. cbv zeta. split; [apply ExamplesUse.ex_use_fair; cbn; destruct H as [[-> _]|[-> _]]; auto 10|]. split; [apply ExamplesUse.ex_frames_whole; lia|]. split; [reflexivity|]. split; [reflexivity|]. split; [reflexivity|]. split; [destruct H as [[-> _]|[-> _]]; vm_compute; reflexivity|].
  split; [reflexivity|]. split; [reflexivity|]. split; [reflexivity|]. apply dur_run. destruct H as [[-> ->]|[-> ->]]; vm_compute; reflexivity.
Qed.

Print Assumptions C63_v2_s3_acknowledged.
Print Assumptions C63_v3_s3_answered_partial.
