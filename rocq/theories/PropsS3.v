(** C15, C16, C17: objects stored through the S3 sinks. Vocabulary: S3Spec.v. [e_s3 E k] says whether request number k succeeds. *)
Require Import ZArith List Bool String Ascii Lia.
Require Import Verif.Base Verif.Radix Verif.World Verif.SinkProofs Verif.S3Spec Verif.S3Proofs.
Import ListNotations.
Open Scope string_scope.
Open Scope list_scope.
Open Scope Z_scope.

(** *** helpers *)
Lemma part_of_events b k id ps : forall tr0 i, (i < List.length ps)%nat ->
  part_of (rev (part_events b k id ps) ++ tr0) b k id (Z.of_nat i + 1) = nth i ps [].
Proof.
  induction ps as [|p ps IH] using rev_ind; intros tr0 i Hi; [cbn in Hi; lia|]. rewrite part_events_app, rev_app_distr. cbn [rev app]. cbn [part_of]. rewrite !String.eqb_refl, Z.eqb_refl. cbn [andb].
  rewrite app_length in Hi. cbn [List.length] in Hi. destruct (Z.eqb_spec (Z.of_nat i + 1) (Z.of_nat (List.length ps) + 1)) as [E|E].
  - assert (i = List.length ps) by lia. subst i. rewrite app_nth2, Nat.sub_diag by lia. reflexivity.
  - rewrite app_nth1 by lia. apply IH. lia.
Qed.
Lemma object_of_requests E b k tr0 c evs : c <> [] -> requests b k c evs -> object_of E (tr0 ++ evs) b k = Some c.
Proof.
  intros Hc. unfold requests. destruct (Z.eqb_spec (zlen c) 0) as [Z0|_]; [destruct c; [congruence|unfold zlen in Z0; cbn in Z0; lia]|].
  destruct (zlen c <? 5 * 2 ^ 20).
  - intros ->. unfold object_of. rewrite rev_app_distr. cbn. rewrite !String.eqb_refl. reflexivity.
  - intros (id & ps & <- & _ & ->). unfold object_of. rewrite rev_app_distr. cbn [rev]. rewrite rev_app_distr. cbn [rev app object_rev]. rewrite !String.eqb_refl. cbn [andb]. f_equal. f_equal.
    apply nth_ext with (d := []) (d' := []); [unfold numbers; rewrite !map_length, seq_length; reflexivity|]. intros i Hi. unfold numbers in *. rewrite !map_length, seq_length in Hi.
    rewrite nth_indep with (d' := part_of ((rev (part_events b k id ps) ++ [EMpCreate b k id]) ++ rev tr0) b k id (Z.of_nat 0 + 1)) by (rewrite !map_length, seq_length; exact Hi).
    rewrite map_map, map_nth with (d := 0%nat). rewrite seq_nth by exact Hi. cbn [Nat.add]. rewrite <- app_assoc. apply part_of_events. exact Hi.
Qed.
Lemma fresh_written b k w : written b k (w_trace w) [] (mks3 b k [] 0 0 None) w.
Proof. exists []. split; [repeat split; auto|]. cbn. split; [unfold part_size; lia|]. split; [unfold zlen; cbn; lia|]. split; [reflexivity|congruence]. Qed.

(** *** C15, C16 *)
(** Whatever requests fail: if the writes and the final flush report success, the requests are exactly those of one object with the
    concatenation of the data ([requests]), and the object has this content. *)
Theorem C15_C16_success_means_stored : forall E b k ds w w',
  b <> "" -> k <> "" -> (0 < w_conns w)%nat -> zlen (List.concat ds) < 2 ^ 64 ->
  object_session E b k ds w = (w', Ok (true, true)) ->
  (exists evs, w_trace w' = w_trace w ++ evs /\ requests b k (List.concat ds) evs) /\
  (List.concat ds <> [] -> object_of E (w_trace w') b k = Some (List.concat ds)) /\
  w_conns w' = w_conns w.
Proof.
  intros E b k ds w w' Hb Hk Hc Hl. unfold object_session, s3_sink, expectM. rewrite (beq b Hb), (beq k Hk). cbn [negb]. cbv beta iota delta [bind ret].
  pose proof (write_all_cases E b k Hb Hk (w_trace w) ds (mks3 b k [] 0 0 None) w [] (fresh_written b k w) ltac:(change (zlen (@nil Z)) with 0; lia) Hc) as X. change (zlen (@nil Z)) with 0 in X. cbn [app] in X.
  destruct (write_all E 0 ds (mks3 b k [] 0 0 None, w)) as ((s1 & w1) & [[]|m| |]); try discriminate; try (destruct (s3_flush E (s1, w1)) as ((s2 & w2) & [[]|m| |]); discriminate).
  destruct X as [X1 X2]. pose proof (flush_cases E b k Hb Hk (w_trace w) _ s1 w1 X1 Hl ltac:(lia)) as Y.
  destruct (s3_flush E (s1, w1)) as ((s2 & w2) & [[]|m| |]); try discriminate. intros R. injection R as <-. destruct Y as [(evs & Y1 & Y2) Y3].
  split; [eauto|]. split; [|lia]. intros Hn. rewrite Y1. apply object_of_requests; auto.
Qed.
(** If no request fails, they do report success. *)
Theorem C15_sequential : forall E b k ds w,
  (forall j, e_s3 E j = true) -> b <> "" -> k <> "" -> (0 < w_conns w)%nat -> zlen (List.concat ds) < 2 ^ 64 ->
  exists w' evs, object_session E b k ds w = (w', Ok (true, true)) /\ w_trace w' = w_trace w ++ evs /\ requests b k (List.concat ds) evs /\
    (List.concat ds <> [] -> object_of E (w_trace w') b k = Some (List.concat ds)).
Proof.
  intros E b k ds w HE Hb Hk Hc Hl. assert (exists w', object_session E b k ds w = (w', Ok (true, true))) as [w' R].
  { unfold object_session, s3_sink, expectM. rewrite (beq b Hb), (beq k Hk). cbn [negb]. cbv beta iota delta [bind ret].
    pose proof (write_all_cases E b k Hb Hk (w_trace w) ds (mks3 b k [] 0 0 None) w [] (fresh_written b k w) ltac:(change (zlen (@nil Z)) with 0; lia) Hc) as X. change (zlen (@nil Z)) with 0 in X. cbn [app] in X.
    destruct (write_all E 0 ds (mks3 b k [] 0 0 None, w)) as ((s1 & w1) & [[]|m| |]); try (destruct X as [_ [j Hj]]; rewrite HE in Hj; discriminate).
    destruct X as [X1 X2]. pose proof (flush_cases E b k Hb Hk (w_trace w) _ s1 w1 X1 Hl ltac:(lia)) as Y.
    destruct (s3_flush E (s1, w1)) as ((s2 & w2) & [[]|m| |]); try (destruct Y as (_ & _ & j & Hj); rewrite HE in Hj; discriminate). eauto. }
  destruct (C15_C16_success_means_stored E b k ds w w' Hb Hk Hc Hl R) as ((evs & A & B) & C & _). exists w', evs. auto.
Qed.
(** Whenever the object is not stored whole, the write or the flush says so (or throws). *)
Theorem C16_failed_write_is_reported : forall E b k ds w w' r,
  b <> "" -> k <> "" -> (0 < w_conns w)%nat -> zlen (List.concat ds) < 2 ^ 64 -> List.concat ds <> [] ->
  object_session E b k ds w = (w', r) -> object_of E (w_trace w') b k <> Some (List.concat ds) -> r <> Ok (true, true).
Proof.
  intros E b k ds w w' r Hb Hk Hc Hl Hn R HO ->. apply HO. exact (proj1 (proj2 (C15_C16_success_means_stored E b k ds w w' Hb Hk Hc Hl R)) Hn).
Qed.
(** Full statement (C16): if uploading a part fails the object is not completed as if it were whole. False: two parts of 5 MiB; the upload of
    the second fails, and the write reports it; the flush then completes the object with the first part only, and reports success. *)
Definition ex_env (f : nat -> bool) : env := mkenv (fun _ => None) (fun _ => false) (fun _ _ => None) (fun _ => false) f 1 (fun _ _ _ => None) (fun _ => true) (fun _ => None) (fun _ _ => true).
Lemma getS_at (s : s3sink) (w : world) : getS (s, w) = ((s, w), Ok s). Proof. reflexivity. Qed.
Lemma short_write err cb b ck k d1 d2 : zlen d1 = part_size -> zlen d2 = part_size ->
  let E := ex_env (fun j => negb (Nat.eqb j 2)) in let w := mkworld [] 0 1 err in
  exists s2, s3_write E 0 (d1 ++ d2) (mks3 (String cb b) (String ck k) [] 0 0 None, w) = ((s2, mkworld [EMpCreate (String cb b) (String ck k) 1; EMpPart (String cb b) (String ck k) 1 1 d1] 3 1 err), Ok false) /\ s_nbuf s2 = 0 /\ s_bucket s2 = String cb b /\ s_key s2 = String ck k /\ s_mp s2 = Some (1, [1]).
Proof.
  intros L1 L2. cbv zeta. set (E := ex_env (fun j => negb (Nat.eqb j 2))). set (w := mkworld [] 0 1 err).
  assert (PS : 0 < part_size) by (unfold part_size; lia).
  set (s0 := mks3 (String cb b) (String ck k) [] 0 0 None).
  unfold s3_write. rewrite zlen_app, L1, L2. rewrite (proj2 (Z.eqb_neq (part_size + part_size) 0)) by lia. rewrite (bind_ok getS _ _ (s0, w) s0) by reflexivity. cbn [s0 s_nflush]. change (0 <? 0) with false. cbv iota.
    rewrite (bind_ok (putS _) _ _ (s0, w) tt) by reflexivity.
    remember (2 * List.length (d1 ++ d2) + 2)%nat as fuel eqn:EF. assert (3 <= fuel)%nat by (rewrite EF, app_length; unfold zlen in *; lia). clear EF. destruct fuel as [|[|fuel]]; try lia.
    cbn [s3_write_loop]. rewrite zlen_app, L1, L2. rewrite (proj2 (Z.eqb_neq (part_size + part_size) 0)) by lia. rewrite (bind_ok getS _ _ (s0, w) s0) by reflexivity.
    cbn [s0 s_nbuf s_buf s_nflush s_mp s_bucket s_key]. rewrite (proj2 (Z.ltb_ge part_size 0)) by lia. replace (Z.min (part_size + part_size) (part_size - 0)) with part_size by lia.
    assert (F1 : firstn (Z.to_nat part_size) (d1 ++ d2) = d1). { rewrite <- L1. unfold zlen. rewrite Nat2Z.id, firstn_app, Nat.sub_diag, firstn_all, firstn_O, app_nil_r. reflexivity. }
    assert (F2 : skipn (Z.to_nat part_size) (d1 ++ d2) = d2). { rewrite <- L1. unfold zlen. rewrite Nat2Z.id, skipn_app, Nat.sub_diag, skipn_all. reflexivity. }
    rewrite F1, F2. set (s1 := mks3 (String cb b) (String ck k) (write_at [] 0 d1) (0 + part_size) 0 None). rewrite (bind_ok (putS s1) _ _ (s1, w) tt) by reflexivity.
    rewrite (proj2 (Z.eqb_eq (0 + part_size) part_size)) by lia.
    assert (B1 : slice (write_at [] 0 d1) 0 (0 + part_size) = d1). { rewrite <- L1. rewrite write_at_end by (unfold zlen; cbn; lia). reflexivity. }
    assert (R1 : s3_flush_part E (s1, w) = ((mks3 (String cb b) (String ck k) (write_at [] 0 d1) 0 (u64 (0 + (0 + part_size))) (Some (1, [1])), mkworld [EMpCreate (String cb b) (String ck k) 1; EMpPart (String cb b) (String ck k) 1 1 d1] 2 1 err), Ok true)).
    { unfold s3_flush_part. rewrite (bind_ok getS _ _ (s1, w) s1) by reflexivity. cbn [s1 s_nbuf s_mp]. rewrite (proj2 (Z.eqb_neq (0 + part_size) 0)) by lia.
      set (m2 := mks3 (String cb b) (String ck k) (write_at [] 0 d1) (0 + part_size) 0 (Some (1, []))). set (w2 := mkworld [EMpCreate (String cb b) (String ck k) 1] 1 1 err).
      rewrite (bind_ok (s3_create_upload E) _ _ (m2, w2) tt) by reflexivity. rewrite (bind_ok (onW get_connection) _ _ (m2, mkworld [EMpCreate (String cb b) (String ck k) 1] 1 0 err) tt) by reflexivity.
      rewrite (bind_ok getS _ _ (m2, mkworld [EMpCreate (String cb b) (String ck k) 1] 1 0 err) m2) by reflexivity. cbn [m2 s_mp s_bucket s_key s_buf s_nbuf s_nflush]. rewrite B1. unfold s3_upload_part. rewrite (proj2 (Z.eqb_neq (zlen d1) 0)) by lia. reflexivity. }
    rewrite (bind_ok (s3_flush_part E) _ _ _ true R1). cbv iota.
    set (s2 := mks3 (String cb b) (String ck k) (write_at [] 0 d1) 0 (u64 (0 + (0 + part_size))) (Some (1, [1]))). set (w2 := mkworld [EMpCreate (String cb b) (String ck k) 1; EMpPart (String cb b) (String ck k) 1 1 d1] 2 1 err).
    rewrite L2. rewrite (proj2 (Z.eqb_neq part_size 0)) by lia. rewrite (bind_ok getS _ _ (s2, w2) s2) by reflexivity. cbn [s2 s_nbuf s_buf s_nflush s_mp s_bucket s_key].
    rewrite (proj2 (Z.ltb_ge part_size 0)) by lia. replace (Z.min part_size (part_size - 0)) with part_size by lia.
    set (bf := write_at (write_at [] 0 d1) 0 (firstn (Z.to_nat part_size) d2)). set (s3 := mks3 (String cb b) (String ck k) bf (0 + part_size) (u64 (0 + (0 + part_size))) (Some (1, [1]))).
    rewrite (bind_ok (putS s3) _ _ (s3, w2) tt) by reflexivity. rewrite (proj2 (Z.eqb_eq (0 + part_size) part_size)) by lia.
    assert (B3 : zlen (slice bf 0 (0 + part_size)) = part_size).
    { unfold bf. assert (firstn (Z.to_nat part_size) d2 = d2) as -> by (rewrite <- L2; unfold zlen; rewrite Nat2Z.id; apply firstn_all). rewrite <- L2. rewrite write_at_end by (pose proof (zlen_nonneg (write_at [] 0 d1)); lia). unfold slice. cbn [Z.to_nat skipn firstn]. reflexivity. }
    assert (R3 : s3_flush_part E (s3, w2) = ((mks3 (String cb b) (String ck k) bf 0 (u64 (u64 (0 + (0 + part_size)) + (0 + part_size))) (Some (1, [1])), mkworld [EMpCreate (String cb b) (String ck k) 1; EMpPart (String cb b) (String ck k) 1 1 d1] 3 1 err), Ok false)).
    { unfold s3_flush_part. rewrite (bind_ok getS _ _ (s3, w2) s3) by reflexivity. cbn [s3 s_nbuf s_mp]. rewrite (proj2 (Z.eqb_neq (0 + part_size) 0)) by lia.
      rewrite (bind_ok (ret tt) _ _ (s3, w2) tt) by reflexivity. rewrite (bind_ok (onW get_connection) _ _ (s3, mkworld [EMpCreate (String cb b) (String ck k) 1; EMpPart (String cb b) (String ck k) 1 1 d1] 2 0 err) tt) by reflexivity.
      rewrite (bind_ok getS _ _ (s3, mkworld [EMpCreate (String cb b) (String ck k) 1; EMpPart (String cb b) (String ck k) 1 1 d1] 2 0 err) s3) by reflexivity. cbn [s3 s_mp s_bucket s_key s_buf s_nbuf s_nflush]. unfold s3_upload_part. rewrite B3. rewrite (proj2 (Z.eqb_neq part_size 0)) by lia. reflexivity. }
    rewrite (bind_ok (s3_flush_part E) _ _ _ false R3). cbv iota. eexists. split; [reflexivity|]. cbn. auto.
Qed.
Lemma truncated d1 d2 : zlen d1 = part_size -> zlen d2 = part_size ->
  let E := ex_env (fun j => negb (Nat.eqb j 2)) in let w := mkworld [] 0 1 "" in
  let w' := mkworld [EMpCreate "b" "k" 1; EMpPart "b" "k" 1 1 d1; EMpComplete "b" "k" 1 [1]] 4 1 "" in
  object_session E "b" "k" [d1 ++ d2] w = (w', Ok (false, true)) /\ object_of E (w_trace w') "b" "k" = Some d1.
Proof.
  intros L1 L2. cbv zeta. set (E := ex_env (fun j => negb (Nat.eqb j 2))). set (w := mkworld [] 0 1 "").
  assert (PS : 0 < part_size) by (unfold part_size; lia).
  set (s0 := mks3 "b" "k" [] 0 0 None).
  destruct (short_write "" "b"%char "" "k"%char "" d1 d2 L1 L2) as (s2 & W & N2 & B2 & K2 & M2). fold E w s0 in W.
  split.
  - unfold object_session. change (s3_sink "b" "k" w) with (w, @Ok s3sink s0). cbv beta iota. cbn [write_all].
    unfold bind. rewrite W. cbv beta iota. unfold ret at 1. unfold s3_flush. rewrite (bind_ok getS _ _ _ s2) by reflexivity. rewrite M2, N2. change (0 <? 0) with false. cbv iota.
    unfold bind, ret, s3_finalize, getS, onW, bind. cbn [get_connection w_conns w_trace w_tick w_err fst snd]. rewrite M2, B2, K2. cbn. reflexivity.
  - cbn. rewrite app_nil_r. reflexivity.
Qed.
Theorem C16_refuted : exists E b k d1 d2 w w',
  zlen d1 = 5 * 2 ^ 20 /\ zlen d2 = 5 * 2 ^ 20 /\ (0 < w_conns w)%nat /\
  object_session E b k [d1 ++ d2] w = (w', Ok (false, true)) /\ object_of E (w_trace w') b k = Some d1.
Proof.
  assert (X : exists d1 d2 : list Z, zlen d1 = part_size /\ zlen d2 = part_size).
  { exists (zrep 1 part_size), (zrep 2 part_size). unfold zlen, zrep. rewrite !repeat_length, !Z2Nat.id by (unfold part_size; lia). auto. }
  destruct X as (d1 & d2 & L1 & L2). destruct (truncated d1 d2 L1 L2) as [A B].
  do 3 eexists. exists d1, d2. do 2 eexists. split; [exact L1|]. split; [exact L2|]. split; [|split; [exact A|exact B]]. cbn. lia.
Qed.

(** *** C17 *)
(** Any operations on any sinks in any states, any failing requests: each operation that ends with an exception loses one connection, no other
    does, and an operation blocks for ever only when the pool is empty. *)
Theorem C17_exact : forall E l ss w w' rs,
  run_ops E l ss w = (w', rs) -> (forall b, In (OBucket b) l -> b <> "") -> ~ In UB rs ->
  (w_conns w' + List.length (filter threw rs) = w_conns w)%nat /\ (In Hang rs -> w_conns w' = 0%nat).
Proof.
  intros E. induction l as [|o l IH]; intros ss w w' rs R HB HU; cbn [run_ops] in R.
  - injection R as <- <-. cbn. split; [lia|tauto].
  - assert (C : let '((_, w1), r) := run_op E o ss w in conns_ok w w1 r).
    { destruct o as [i off d|i|b]; cbn [run_op].
      - pose proof (write_conns E off d (ss i) w) as X. destruct (s3_write E off d (ss i, w)) as ((s1 & w1) & r). exact X.
      - pose proof (flush_conns E (ss i) w) as X. destruct (s3_flush E (ss i, w)) as ((s1 & w1) & r). exact X.
      - pose proof (bucket_conns E b w (HB b ltac:(left; reflexivity))) as X. destruct (bucket_exists E b w) as (w1 & r). exact X. }
    destruct (run_op E o ss w) as ((ss1 & w1) & r). cbn in C.
    assert (HB' : forall b, In (OBucket b) l -> b <> "") by (intros b H; apply HB; right; exact H).
    destruct r as [ok|m| |].
    + destruct (run_ops E l ss1 w1) as (w2 & rs2) eqn:R2. injection R as <- <-. destruct (IH ss1 w1 w2 rs2 R2 HB' ltac:(intros H; apply HU; right; exact H)) as [A B]. cbn in *. split; [lia|]. intros [H|H]; [discriminate|auto].
    + destruct (run_ops E l ss1 w1) as (w2 & rs2) eqn:R2. injection R as <- <-. destruct (IH ss1 w1 w2 rs2 R2 HB' ltac:(intros H; apply HU; right; exact H)) as [A B]. cbn in *. split; [lia|]. intros [H|H]; [discriminate|auto].
    + injection R as <- <-. exfalso. apply HU. left. reflexivity.
    + injection R as <- <-. cbn in *. destruct C. split; lia.
Qed.
(** Objects shorter than one part (5 MiB): every operation comes back and no connection is lost, whatever requests fail.
    Full statement (C17): for objects of any size. False: C17_refuted. *)
Definition below_a_part (o : op) : Prop :=
  match o with OWrite _ off d => 0 <= off /\ off + zlen d < 5 * 2 ^ 20 | OFlush _ => True | OBucket b => b <> "" end.
Theorem C17_small_objects_partial : forall E l ss w w' rs,
  (forall i, s_mp (ss i) = None /\ 0 <= s_nflush (ss i)) -> Forall below_a_part l -> (0 < w_conns w)%nat ->
  run_ops E l ss w = (w', rs) ->
  w_conns w' = w_conns w /\ Forall (fun r => exists ok, r = Ok ok) rs /\ List.length rs = List.length l.
Proof.
  intros E. induction l as [|o l IH]; intros ss w w' rs HS HL Hc R; cbn [run_ops] in R.
  - injection R as <- <-. auto.
  - inversion HL as [|? ? Ho HL']; subst.
    assert (C : exists ss1 w1 ok, run_op E o ss w = ((ss1, w1), Ok ok) /\ (forall i, small (ss1 i)) /\ w_conns w1 = w_conns w).
    { destruct o as [i off d|i|b]; cbn [run_op below_a_part] in *.
      - destruct (write_small E off d (ss i) w (HS i) (proj1 Ho) (proj2 Ho)) as (s' & ok & -> & X). eexists. eexists. eexists. split; [reflexivity|]. split; [|reflexivity]. intros j. destruct (Nat.eqb j i); auto. apply HS.
      - destruct (flush_small E (ss i) w (HS i) Hc) as (s' & w1 & ok & -> & X & Y). eexists. eexists. eexists. split; [reflexivity|]. split; [|exact Y]. intros j. destruct (Nat.eqb j i); auto. apply HS.
      - pose proof (bucket_conns E b w Ho) as X. unfold bucket_exists, expectM in *. rewrite (proj2 (String.eqb_neq _ _) Ho) in *. cbn [negb] in *. destruct w as [tr tk [|cn] er]; cbn in Hc; [lia|]. cbn in *. eexists. eexists. eexists. split; [reflexivity|]. split; [exact HS|reflexivity]. }
    destruct C as (ss1 & w1 & ok & RO & HS1 & Hw1). rewrite RO in R. destruct (run_ops E l ss1 w1) as (w2 & rs2) eqn:R2. injection R as <- <-.
    destruct (IH ss1 w1 w2 rs2 HS1 HL' ltac:(lia) R2) as (A & B & D). split; [lia|]. split; [constructor; eauto|cbn; lia].
Qed.
(** One connection; the request that starts an upload in parts fails: the connection is gone, and the upload of a small object blocks for ever. *)
Theorem C17_refuted : exists E l ss w w',
  w_conns w = 1%nat /\ (forall i, s_mp (ss i) = None /\ s_nflush (ss i) = 0) /\ e_s3 E 0 = false /\ (forall j, (0 < j)%nat -> e_s3 E j = true) /\
  run_ops E l ss w = (w', [Throw "Upload id returned empty."; Ok true; Hang]) /\ w_conns w' = 0%nat.
Proof.
  exists (ex_env (fun j => negb (Nat.eqb j 0))), [OWrite 0 (part_size - 1) [7]; OWrite 1 0 [8]; OFlush 1], (fun i => mks3 "b" (if Nat.eqb i 0 then "k0" else "k1") [] 0 0 None), (mkworld [] 0 1 "").
  eexists. split; [reflexivity|]. split; [intros; split; reflexivity|]. split; [reflexivity|]. split; [intros [|j] H; [lia|reflexivity]|]. split; [lazy; reflexivity|reflexivity].
Qed.

(** the hypotheses can be met, with a failing request and with more than one part *)
Example C15_hypotheses : exists E (ds : list (list Z)) w, (forall j, e_s3 E j = true) /\ (0 < w_conns w)%nat /\ 2 * (5 * 2 ^ 20) < zlen (List.concat ds) < 2 ^ 64.
Proof.
  exists (ex_env (fun _ => true)), [zrep 1 (5 * 2 ^ 20); zrep 2 (5 * 2 ^ 20 + 3)], (mkworld [] 0 1 ""). split; [reflexivity|]. split; [cbn; lia|].
  cbn [List.concat]. rewrite app_nil_r, zlen_app. unfold zlen, zrep. rewrite !repeat_length, !Z2Nat.id by lia. lia.
Qed.
Example C17_small_hypotheses : exists w',
  run_ops (ex_env (fun j => negb (Nat.eqb j 0))) [OWrite 0 0 [1; 2]; OFlush 0; OBucket "b"; OFlush 0] (fun _ => mks3 "b" "k" [] 0 0 None) (mkworld [] 0 1 "") = (w', [Ok true; Ok false; Ok true; Ok true]) /\
  Forall below_a_part [OWrite 0 0 [1; 2]; OFlush 0; OBucket "b"; OFlush 0].
Proof. eexists. split; [vm_compute; reflexivity|]. repeat constructor; cbn; try lia; discriminate. Qed.

Print Assumptions C15_C16_success_means_stored.
Print Assumptions C15_sequential.
Print Assumptions C16_failed_write_is_reported.
Print Assumptions C16_refuted.
Print Assumptions C17_exact.
Print Assumptions C17_small_objects_partial.
Print Assumptions C17_refuted.
