(** C22, C23: failures of background jobs and of the filesystem, and who is told about them. *)
Require Import ZArith List Bool String Ascii Lia.
Require Import Verif.Base Verif.Dim Verif.Json Verif.Radix Verif.World Verif.Writer Verif.SinkProofs Verif.RepProofs Verif.PropsS3 Verif.Stream Verif.Api Verif.RepStream.
Require Verif.Examples.
Require Import Verif.Pool Verif.PoolSpec Verif.PoolProofs Verif.PoolRun Verif.PoolAssert Verif.Jobs Verif.PropsPool Verif.PropsJobs.
Import ListNotations.
Open Scope string_scope. Open Scope list_scope. Open Scope Z_scope.

(** *** C22: version 2 on S3 *)
(** A new stream to S3 in version 2, any append calls, then one more. Requests to the server are numbered; [w_tick] is the number of the next one.
    If a request made during this call is refused (an upload of a chunk, say), the call itself fails, or every append call after it fails and
    writes nothing. For all settings, all data and all patterns of failures. *)
Theorem C22_v2_s3 : forall E st calls d w0 w1 s1 w2 s2 rs w3 s3 r,
  st_version st = 2 -> st_s3 st <> None ->
  api_create E (Some st) w0 = (w1, Ok (Some s1)) ->
  api_appends E calls (s1, w1) = ((s2, w2), Ok rs) ->
  api_append E (Some d) true (s2, w2) = ((s3, w3), Ok r) ->
  (exists k, (w_tick w2 <= k < w_tick w3)%nat /\ e_s3 E k = false) ->
  fst r = st_internal_error \/
  forall later, api_appends E later (s3, w3) = ((s3, w3), Ok (map (fun _ => (st_internal_error, None)) later)).
Proof.
  intros E st calls d w0 w1 s1 w2 s2 rs w3 s3 r V S C A1 A2 R. unfold api_create, catchM, bind in C. destruct (new_stream E (Some st) w0) as [w1' [s|m| |]] eqn:NS; try discriminate. injection C as <- <-.
  pose proof (new_arr E st w0 w1' s V S NS) as HA. pose proof (t_appends E calls (s, w1') HA) as (B1 & _). rewrite A1 in B1. cbn [fst] in B1.
  pose proof (t_api_append E d (s2, w2) B1) as (_ & _ & _ & _ & B5). rewrite A2 in B5. cbn [fst snd] in B5. destruct (B5 R) as [X|X]; [|left; apply (X r eq_refl)]. right. intros later. apply appends_refused. exact X.
Qed.
(** Once the stream has recorded an error, every append fails, does nothing, and leaves the error recorded (any stream, any version). *)
Theorem C22_error_is_permanent : forall E s w later, w_err w <> "" ->
  api_appends E later (s, w) = ((s, w), Ok (map (fun _ => (st_internal_error, None)) later)).
Proof. intros E s w later H. apply appends_refused. exact H. Qed.
(** The hypotheses can be met: the fourth request is refused; it is the first upload of a chunk, made by the sixth append call. *)
Definition rx_env (n : nat) : env := mkenv (fun _ => None) (fun _ => false) (fun _ _ => None) (fun _ => false) (fun k => negb (Nat.eqb k n)) 1 (fun _ _ _ => None) (fun _ => true) (fun s => if String.eqb s "{}" then Some "{}" else None) (fun _ _ => true).
Example C22_v2_s3_hypotheses : exists w1 s1 w2 s2 rs w3 s3 r,
  api_create (rx_env 3) (Some (Examples.ex_s3_settings 2)) Examples.ex_world = (w1, Ok (Some s1)) /\
  api_appends (rx_env 3) (repeat (zrep 1 70) 5) (s1, w1) = ((s2, w2), Ok rs) /\ rs = repeat (st_success, Some 70) 5 /\
  api_append (rx_env 3) (Some (zrep 1 70)) true (s2, w2) = ((s3, w3), Ok r) /\ (w_tick w2 <= 3 < w_tick w3)%nat /\ e_s3 (rx_env 3) 3 = false /\ r = (st_internal_error, None).
Proof.
  assert (X : match api_create (rx_env 3) (Some (Examples.ex_s3_settings 2)) Examples.ex_world with
    | (w1, Ok (Some s1)) => match api_appends (rx_env 3) (repeat (zrep 1 70) 5) (s1, w1) with
        | ((s2, w2), Ok rs) => match api_append (rx_env 3) (Some (zrep 1 70)) true (s2, w2) with
            | ((s3, w3), Ok r) => rs = repeat (st_success, Some 70) 5 /\ Nat.leb (w_tick w2) 3 && Nat.ltb 3 (w_tick w3) = true /\ r = (st_internal_error, None)
            | _ => False end
        | _ => False end
    | _ => False end) by (vm_compute; auto).
  destruct (api_create _ _ _) as [w1 [[s1|]|m| |]] eqn:C; try contradiction. destruct (api_appends _ _ _) as [[s2 w2] [rs|m| |]] eqn:A; try contradiction. destruct (api_append _ _ _ _) as [[s3 w3] [r|m| |]] eqn:B; try contradiction.
  destruct X as (X1 & X2 & X3). apply andb_prop in X2 as [X4 X5]. apply Nat.leb_le in X4. apply Nat.ltb_lt in X5. do 8 eexists. split; [reflexivity|]. split; [exact A|]. split; [exact X1|]. split; [exact B|]. auto.
Qed.

(** *** C22: version 3 *)
(** Full statement: a failed upload by a job of version 3 is reported too. False: one shard of one chunk of 10 MiB; the server refuses the second
    part. The write of the chunk says so, the job fails, but without a message, and "no message" means "no error" to the stream: afterwards no
    error is recorded, and one recorded before ([err], whatever it was) has been erased. *)
Definition rx_cfg : config := mkconfig [mkdim "t" ty_time 0 1 1; mkdim "y" ty_space 1 1 1; mkdim "x" ty_space 10485760 10485760 1] dt_uint8 0 (Some "b") "out" None.
Definition rx_writer (d : list Z) : writer := match make_writer true rx_cfg with Ok a => set_frames (set_toflush (set_bufs a [d]) 10485760) 1 | _ => mkwriter rx_cfg true [] 0 0 0 false [] None [] [] end.
Definition rx_key : string := "out/data/root/0/c0/0/0".
Theorem C22_v3_refuted : exists E d1 d2, zlen d1 = 5 * 2 ^ 20 /\ zlen d2 = 5 * 2 ^ 20 /\ e_s3 E 2 = false /\
  forall err, exists a' w',
    flush_impl E (rx_writer (d1 ++ d2), mkworld [] 0 1 err) = ((a', w'), Ok true) /\
    (2 < w_tick w')%nat /\ w_err w' = "" /\
    exists a'' w'', close_sinks E (a', w') = ((a'', w''), Ok tt) /\ w_err w'' = "" /\ object_of E (w_trace w'') "b" rx_key = Some d1.
Proof.
  assert (X : exists d1 d2 : list Z, zlen d1 = part_size /\ zlen d2 = part_size).
  { exists (zrep 1 part_size), (zrep 2 part_size). unfold zlen, zrep. rewrite !repeat_length, !Z2Nat.id by (unfold part_size; lia). auto. }
  destruct X as (d1 & d2 & L1 & L2). exists (PropsS3.ex_env (fun j => negb (Nat.eqb j 2))), d1, d2. split; [exact L1|]. split; [exact L2|]. split; [reflexivity|]. intros err.
  destruct (short_write err "b"%char "" "o"%char "ut/data/root/0/c0/0/0" d1 d2 L1 L2) as ([sb sk sbuf nb nf mp] & W & N2 & B2 & K2 & M2). cbn in N2, B2, K2, M2. subst sb sk nb mp. set (s2 := mks3 _ _ sbuf _ _ _) in W.
  set (E := PropsS3.ex_env _) in *. set (d := d1 ++ d2) in *. clearbody d.
  set (w0 := mkworld [] 0 1 err). set (a1 := set_sinks (rx_writer d) [Some (SS3 (mks3 "b" rx_key [] 0 0 None))]).
  assert (MS : make_data_sinks E (rx_writer d, w0) = ((a1, w0), Ok true)) by (vm_compute; reflexivity).
  set (w1 := mkworld [EMpCreate "b" rx_key 1; EMpPart "b" rx_key 1 1 d1] 3 1 err). set (a2 := set_sinks (rx_writer d) [Some (SS3 s2)]).
  assert (CH : v3_chunk E 0 false 0 (a1, w0) = ((a2, w1), Ok (false, None))).
  { unfold v3_chunk. rewrite (bind_ok getA _ (a1, w0) (a1, w0) a1) by reflexivity. cbv zeta. change (nth 0 (a_bufs a1) []) with d. change (nth 0 (a_offsets a1) 0) with 0.
    unfold catchM, bind, on_sink. change (nth 0 (a_sinks a1) None) with (Some (SS3 (mks3 "b" rx_key [] 0 0 None))). cbv iota. unfold sink_write, runS. cbn [fst snd]. fold w0 in W. unfold rx_key. rewrite W. reflexivity. }
  set (w2 := mkworld [EMpCreate "b" rx_key 1; EMpPart "b" rx_key 1 1 d1] 3 1 "").
  assert (JB : v3_job E true [[0%nat]] 0 (a1, w0) = ((a2, w2), Ok tt)).
  { unfold v3_job. cbn [nth v3_chunks]. unfold bind. rewrite CH. reflexivity. }
  set (a3 := set_offsets (set_tables a2 (map (fun t => zrep max64 (zlen t)) (a_tables a2))) (map (fun _ => 0) (a_offsets a2))).
  exists a3, w2. split.
  { unfold flush_impl. rewrite (bind_ok getA _ (rx_writer d, w0) (rx_writer d, w0) (rx_writer d)) by reflexivity. change (a_v3 (rx_writer d)) with true. cbv iota.
    unfold flush_impl_v3. rewrite (bind_ok getA _ (rx_writer d, w0) (rx_writer d, w0) (rx_writer d)) by reflexivity. change (a_sinks (rx_writer d)) with (@nil (option sink)). cbv iota.
    rewrite (bind_ok _ _ _ _ true MS). cbv iota. rewrite (bind_ok getA _ (a1, w0) (a1, w0) a1) by reflexivity. cbv zeta.
    rewrite (bind_ok (liftM _) _ (a1, w0) (a1, w0) 1) by (vm_compute; reflexivity). rewrite (bind_ok (expectM _ _) _ (a1, w0) (a1, w0) tt) by reflexivity.
    rewrite (bind_ok (liftM _) _ (a1, w0) (a1, w0) [[0%nat]]) by (vm_compute; reflexivity).
    rewrite (bind_ok (if a_final a1 then ret true else liftM (should_rollover a1)) _ (a1, w0) (a1, w0) true) by (vm_compute; reflexivity).
    change (seq 0 (Z.to_nat 1)) with [0%nat]. cbn [miter]. unfold bind. rewrite JB. reflexivity. }
  split; [cbn; lia|]. split; [reflexivity|].
  eexists _, _. split; [|split].
  - unfold close_sinks. rewrite (bind_ok getA _ (a3, w2) (a3, w2) a3) by reflexivity. change (seq 0 (List.length (a_sinks a3))) with [0%nat]. cbn [miter].
    unfold bind at 1 2 3. unfold on_slot. change (nth 0 (a_sinks a3) None) with (Some (SS3 s2)). unfold finalize_sink, sink_flush, runS. cbn [fst snd].
    cbn. reflexivity.
  - reflexivity.
  - cbn. rewrite app_nil_r. reflexivity.
Qed.

(** *** C22: on the pool, version 2 *)
(** Programs of the client thread that push the jobs of version 2 (writing and compressing chunks) and never take an error back. *)
Definition v2_job_of (j : job AW) : Prop := (exists E i, j = v2_pool_job E i) \/ exists E p b i, j = compress_pool_job E p b i.
Inductive tells : client AW -> Prop :=
| t_ret : tells CRet
| t_do f k : (forall d, w_err (snd d) <> "" -> w_err (snd (f d)) <> "") -> (forall d, tells (k d)) -> tells (CDo f k)
| t_push j k : v2_job_of j -> (forall b, tells (k b)) -> tells (CPush j k)
| t_latch n k : tells k -> tells (CLatch n k)
| t_wait k : tells k -> tells (CWait k)
| t_stop k : tells k -> tells (CStop k)
| t_clear k : tells k -> tells (CClear k).
Definition ok_rest (r : job AW) (x : local) : Prop := v2_job_of r \/ (r = [CountDown] \/ r = []) /\ (fst x = false -> snd x <> "").
Definition ok_worker (w : worker AW) : Prop := match w with WRun _ r x => ok_rest r x | WHandle _ m => m <> "" | _ => True end.
Record tinv (s : state AW) : Prop := mktinv { ti_prog : tells (prog s); ti_queue : forall id j, In (id, j) (queue s) -> v2_job_of j; ti_workers : forall w, In w (workers s) -> ok_worker w }.
Lemma sink_write_keeps E off dd s w : w_err w <> "" -> w_err (snd (fst (sink_write E off dd (s, w)))) <> "".
Proof.
  intros H. destruct s as [f|s].
  - unfold sink_write, runF. cbn [fst snd]. unfold file_write. destruct (zlen dd =? 0); [exact H|]. destruct (f_open f); [|exact H]. unfold bind, next_tick. cbn. destruct (e_fault E (w_tick w)); exact H.
  - exact (proj1 (proj2 (proj2 (r_write E off dd (SS3 s, w) I))) H).
Qed.
Lemma act_err j f r x d x' d' : v2_job_of j -> j = Act f :: r -> f x d = (x', d') -> r = [CountDown] /\ (fst x' = false -> snd x' <> "") /\ (w_err (snd d) <> "" -> w_err (snd d') <> "").
Proof.
  intros [(E & i & ->)|(E & p & b & i & ->)] X; injection X as <- <-; intros H.
  - split; auto. unfold v2_body in H. destruct d as [a w]. unfold bind at 1, getA in H. cbn [fst snd] in H. unfold catchM, bind, on_sink in H.
    destruct (nth i (a_sinks a) None) as [s|]; [|injection H as <- <-; cbn; split; [discriminate|auto]].
    destruct (sink_write E 0 (nth i (a_bufs a) []) (s, w)) as [[s' w'] rr] eqn:SW.
    pose proof (sink_write_keeps E 0 (nth i (a_bufs a) []) s w) as EE. rewrite SW in EE. cbn [fst snd] in EE.
    destruct rr as [[]|m| |]; cbn in H; injection H as <- <-; cbn; split; auto; try discriminate.
  - split; auto. unfold compress_body in H. destruct d as [a w]. unfold bind, getA in H. cbn [fst snd] in H. destruct (e_compress _ _ _ _); cbn in H; injection H as <- <-; cbn; split; auto; discriminate.
Qed.

Lemma tinv_put s i o y : tinv s -> nth_error (workers s) i = Some o -> ok_worker y -> forall w, In w (put (workers s) i y) -> ok_worker w.
Proof. intros H N Y w X. destruct (in_put _ _ _ _ _ N X) as [->|Z]; auto. apply (ti_workers s H); auto. Qed.
Lemma notify_ok ws ws' : notify_one ws ws' -> (forall w, In w ws -> ok_worker w) -> forall w, In w ws' -> ok_worker w.
Proof. intros [l i H|l H] X w Y; auto. destruct (in_put _ _ _ _ _ H Y) as [->|Z]; [exact I|auto]. Qed.
(** an error once recorded stays, and a failed job never has an empty message *)
Lemma tinv_step s x s' : tinv s -> step on_error s x s' -> tinv s' /\ (w_err (snd (data s)) <> "" -> w_err (snd (data s')) <> "").
Proof.
  intros T [H|[H|H]].
  - destruct T as [T1 T2 T3]. destruct H; cbn in *; inversion T1; subst; try discriminate; (split; [constructor; cbn; auto|auto]).
    + intros id j' X. apply in_app_iff in X as [X|[X|[]]]; [eauto|]. injection X as _ <-. auto.
    + eapply notify_ok; eauto.
    + intros w X. unfold notify_all in X. apply in_map_iff in X as (w0 & <- & X). destruct w0; try exact I; apply (T3 _ X).
    + intros ? ? [].
  - pose proof T as T0. destruct T as [T1 T2 T3]. destruct H; cbn in *;
      try (split; [constructor; cbn; auto; eapply (tinv_put _ i _ _ T0); cbn; eauto; exact I|auto]).
    + split; auto. constructor; cbn; auto.
      * intros id' j' X. apply (T2 id' j'). auto.
      * eapply (tinv_put _ i _ _ T0); cbn; eauto. left. apply (T2 id j). auto.
    + pose proof (T3 _ (nth_error_In _ _ H)) as O. cbn in O. destruct O as [O|[[O|O] _]]; try discriminate. destruct (act_err _ f r x d x' d' O eq_refl H0) as (A1 & A2 & A3). split; auto. constructor; cbn; auto.
      eapply (tinv_put _ i _ _ T0); cbn; eauto. right. auto.
    + pose proof (T3 _ (nth_error_In _ _ H)) as O. cbn in O. destruct O as [[(E & k & O)|(E & p & b & k & O)]|[[O|O] O2]]; try discriminate. injection O as ->. split; auto. constructor; cbn; auto.
      eapply (tinv_put _ i _ _ T0); cbn; eauto. right. auto.
    + pose proof (T3 _ (nth_error_In _ _ H)) as O. cbn in O. destruct O as [[(E & k & O)|(E & p & b & k & O)]|[[O|O] O2]]; try discriminate. split; auto. constructor; cbn; auto.
      eapply (tinv_put _ i _ _ T0); cbn; eauto; exact (O2 eq_refl).
    + intros _. exact (T3 _ (nth_error_In _ _ H)).
  - destruct H. pose proof T as T0. destruct T as [T1 T2 T3]. cbn in *. split; auto. constructor; cbn; auto. eapply (tinv_put _ i _ _ T0); cbn; eauto; exact I.
Qed.
Lemma tinv_steps s t s' : tinv s -> steps on_error s t s' -> tinv s' /\ (w_err (snd (data s)) <> "" -> w_err (snd (data s')) <> "").
Proof.
  intros T H. induction H as [|s t s1 x s2 H IH HS]; [auto|]. destruct (IH T) as [T1 E1]. destruct (tinv_step _ _ _ T1 HS) as [T2 E2]. auto.
Qed.
Lemma tinv_init n c d : tells c -> tinv (init n c d).
Proof. intros H. constructor; cbn; auto; [tauto|]. intros w X. apply repeat_spec in X. subst w. exact I. Qed.
(** worker [i] is done with the failed job [id], except for the error handler *)
Definition failing (i id : nat) (m : string) (s : state AW) : Prop := nth_error (workers s) i = Some (WRun id [] (false, m)) \/ nth_error (workers s) i = Some (WHandle id m).
Lemma failing_step i id m s x s' : tinv s -> failing i id m s -> step on_error s x s' -> failing i id m s' /\ x <> LEnd id i \/ w_err (snd (data s')) <> "".
Proof.
  intros T F [H|[H|H]].
  - left. split; [|intros ->; inversion H]. destruct H; cbn in *; auto.
    + destruct (notify_cases _ _ H) as [(i' & N & ->)|[N ->]]; auto. unfold failing in *. cbn in *. rewrite (nth_error_put ws i' _ _ i N). destruct (Nat.eqb_spec i i') as [<-|]; auto. destruct F as [F|F]; rewrite F in N; discriminate.
    + unfold failing in *. cbn in *. unfold notify_all. rewrite nth_error_map. destruct F as [F|F]; rewrite F; cbn; auto.
  - destruct (Nat.eq_dec 0 0) as [_|N]; [|congruence]. destruct H; unfold failing in *; cbn in *;
      (destruct (Nat.eq_dec i i0) as [<-|NE];
        [|left; split; [rewrite (nth_error_put ws i0 _ _ i H), (proj2 (Nat.eqb_neq i i0) NE); auto|congruence]]);
      (destruct F as [F|F]; rewrite F in H; try discriminate; injection H; intros; subst).
    + left. split; [|discriminate]. right. rewrite (nth_error_put ws i _ _ i F), Nat.eqb_refl. reflexivity.
    + right. exact (ti_workers _ T _ (nth_error_In _ _ F)).
  - left. destruct H. unfold failing in *. cbn in *. split; [|discriminate]. rewrite (nth_error_put ws i0 _ _ i H). destruct (Nat.eqb_spec i i0) as [<-|]; auto. destruct F as [F|F]; rewrite F in H; discriminate.
Qed.
(** Full statement: as soon as a job has failed, append fails. Proved: for all numbers of workers, all such programs and all schedules, when worker
    [i] has returned from a failed job [id] and has ended it (which includes calling the error handler), an error is recorded, and it stays.
    What is missing is the time in between: see C22_race_refuted. *)
Theorem C22_v2_any_schedule_partial : forall n c d t1 s1 i id m t2 s2,
  tells c -> steps on_error (init n c d) t1 s1 ->
  nth_error (workers s1) i = Some (WRun id [] (false, m)) ->
  steps on_error s1 t2 s2 -> In (LEnd id i) t2 -> w_err (snd (data s2)) <> "".
Proof.
  intros n c d t1 s1 i id m t2 s2 Hc H1 W H2. pose proof (tinv_steps _ _ _ (tinv_init n c d Hc) H1) as [T1 _].
  enough (X : failing i id m s2 /\ ~ In (LEnd id i) t2 \/ w_err (snd (data s2)) <> "") by (intros Y; destruct X as [[_ X]|X]; [contradiction|auto]).
  induction H2 as [s|s t s' x s'' H IH HS]; [left; split; [left; exact W|intros []]|].
  destruct (tinv_steps _ _ _ T1 H) as [T2 _]. destruct (IH H1 W T1) as [[F N]|E].
  - destruct (failing_step i id m s' x s'' T2 F HS) as [[F' NX]|E]; [|right; auto]. left. split; auto. intros Y. apply in_app_iff in Y as [Y|[Y|[]]]; auto.
  - right. destruct (tinv_step _ _ _ T2 HS) as [_ K]. auto.
Qed.
(** When await_stop has returned, every failure of a job has been recorded. *)
Theorem C22_v2_recorded_at_stop : forall n c d t1 s1 i id m t2 s2,
  tells c -> steps on_error (init n c d) t1 s1 ->
  nth_error (workers s1) i = Some (WRun id [] (false, m)) ->
  steps on_error s1 t2 s2 -> In LStopped t2 -> w_err (snd (data s2)) <> "".
Proof.
  intros n c d t1 s1 i id m t2 s2 Hc H1 W H2 ST. pose proof (tinv_steps _ _ _ (tinv_init n c d Hc) H1) as [T1 _].
  assert (X : failing i id m s2 \/ w_err (snd (data s2)) <> "").
  { clear ST. induction H2 as [s|s t s' x s'' H IH HS]; [left; left; exact W|]. destruct (tinv_steps _ _ _ T1 H) as [T2 _]. destruct (IH H1 W T1) as [F|E].
    - destruct (failing_step i id m s' x s'' T2 F HS) as [[F' NX]|E]; auto.
    - right. destruct (tinv_step _ _ _ T2 HS) as [_ K]. auto. }
  destruct X as [F|X]; auto. exfalso.
  assert (H : steps on_error (init n c d) (t1 ++ t2) s2). { clear - H1 H2. induction H2 as [|s t s' x s'' H IH HS]; [rewrite app_nil_r; auto|]. rewrite app_assoc. econstructor; eauto. }
  destruct (hist_steps on_error n c d _ _ H) as [_ HI]. destruct (h_stop _ _ HI) as [_ HW]; [apply in_app_iff; auto|]. destruct F as [F|F]; pose proof (all_done_no _ _ _ HW F); discriminate.
Qed.
(** The gap: the job counts the latch down before its failure is recorded. One chunk, one worker, the compressor fails; the client gets past the
    latch (the append that filled the chunk returns success), and any stream with this state of the world accepts the next append. *)
Definition cx_job : job AW := compress_pool_job (rx_env 0) (mkblosc "lz4" 1 1) 1 0.
Definition cx_start : AW := (rx_writer [1; 2], mkworld [] 0 0 "").
Definition is_failed (w : option (worker AW)) : bool := match w with Some (WRun 0 [] (false, _)) => true | _ => false end.
Lemma is_failed_spec w : is_failed w = true -> exists m, w = Some (WRun 0 [] (false, m)).
Proof. destruct w as [[| | |[|id] [|] [[] m]| |]|]; try discriminate. eauto. Qed.
Theorem C22_race_refuted : exists n c t s i id m,
  tells c /\ steps on_error (init n c cx_start) t s /\ In LPass t /\
  nth_error (workers s) i = Some (WRun id [] (false, m)) /\ w_err (snd (data s)) = "" /\
  exists t' s', steps on_error s (t' ++ [LEnd id i]) s' /\ w_err (snd (data s')) <> "".
Proof.
  destruct (run_check on_error [W 0; W 0; C 0; C 0; C 0; W 0; W 0; W 0; W 0; C 0] (init 1 (batch [cx_job] CRet) cx_start)
    (fun t s => existsb is_pass t && is_failed (nth_error (workers s) 0) && String.eqb (w_err (snd (data s))) "")) as (t & s & R & O); [vm_compute; reflexivity|].
  apply andb_prop in O as [O O3]. apply andb_prop in O as [O1 O2]. apply is_failed_spec in O2 as [m O2]. apply String.eqb_eq in O3.
  assert (TC : tells (batch [cx_job] CRet)). { unfold batch. cbn. constructor. constructor; [right; do 4 eexists; reflexivity|]. intros []; repeat constructor. }
  exists 1%nat, (batch [cx_job] CRet), t, s, 0%nat, 0%nat, m. split; [exact TC|]. split; [exact R|]. split; [apply existsb_exists in O1 as (x & X & Y); destruct x; try discriminate; exact X|]. split; [exact O2|]. split; [exact O3|].
  destruct s as [q a mu l ws cc dd nn jn]. cbn in O2, O3. set (s1 := mkstate q a mu l (put ws 0 (WHandle 0 m)) cc dd nn jn).
  assert (N1 : nth_error (workers s1) 0 = Some (WHandle 0 m)) by (cbn; destruct ws; [discriminate|reflexivity]).
  exists [LWorker 0], (mkstate q a mu l (put (workers s1) 0 WLock) cc (on_error m dd) nn jn).
  assert (ST : steps on_error (mkstate q a mu l ws cc dd nn jn) ([LWorker 0] ++ [LEnd 0%nat 0%nat]) (mkstate q a mu l (put (workers s1) 0 WLock) cc (on_error m dd) nn jn)).
  { econstructor; [|right; left; eapply w_handle; exact N1]. change [LWorker 0] with ([] ++ [@LWorker AW 0]). econstructor; [constructor|]. right. left. eapply w_failed. exact O2. }
  split; [exact ST|]. eapply (C22_v2_any_schedule_partial 1 (batch [cx_job] CRet) cx_start t _ 0 0 m); [exact TC|exact R|exact O2|exact ST|]. right. left. reflexivity.
Qed.
(** *** C22 at destroy *)
(** Nobody looks at the recorded error when the stream is destroyed: the compressor fails on the last chunk; the append calls succeed, destroy
    deletes the stream as if all were well, and the chunk is stored uncompressed although the array is declared to be compressed. *)
Definition fx_env (f : nat -> bool) : env := mkenv (fun _ => None) (fun _ => false) (fun _ _ => None) f (fun _ => true) 1 (fun _ _ _ => None) (fun _ => true) (fun _ => None) (fun _ _ => true).
Definition fx_set (v : Z) (c : option compset) : settings :=
  mksettings (Some "out") None None c (Some [mkudim (Some "t") ty_time 0 2 1; mkudim (Some "y") ty_space 2 2 1; mkudim (Some "x") ty_space 2 2 1]) false dt_uint8 v.
Theorem C22_at_destroy_refuted : exists E st calls w w' rs, session E st calls w = (w', Ok (Some (rs, true))) /\
  Forall (fun r => fst r = st_success) rs /\ w_err w' <> "" /\ file_of E (w_trace w') "out/0/0/0/0" = Some ([1; 2; 3; 4] ++ [0; 0; 0; 0]).
Proof.
  exists (fx_env (fun _ => false)), (fx_set 2 (Some (mkcompset 1 1 5 1))), [[1; 2; 3; 4]], (mkworld [] 0 0 "").
  eexists _, _. split; [vm_compute; reflexivity|]. split; [repeat constructor|]. split; [vm_compute; discriminate|vm_compute; reflexivity].
Qed.

(** *** C23 *)
(** Whatever the operating system does, writing to a file and flushing it report success. *)
Theorem C23_files_never_report : forall E f off d w, snd (file_write E f off d w) = Ok true /\ snd (file_flush f w) = Ok true.
Proof.
  intros E f off d w. split.
  - unfold file_write. destruct (zlen d =? 0); [reflexivity|]. destruct (f_open f); [|reflexivity]. unfold bind, next_tick. cbn. destruct (e_fault E (w_tick w)); reflexivity.
  - unfold file_flush, bind. destruct (f_open f); reflexivity.
Qed.
(** So the property is false: a disk that is full. Directories and (empty) files can be created, no byte can be written. Three append calls and
    destroy succeed, in both versions; no error is recorded; the chunk that was filled is empty on disk, and so is its metadata. *)
Definition full_disk (v : Z) : nat -> bool := fun k => existsb (Nat.eqb k) (if (v =? 2)%Z then [6; 7; 8; 12; 14; 15; 19; 20] else [5; 6; 7; 11; 12; 15; 16; 20; 21; 22])%nat.
Theorem C23_refuted : forall v, v = 2 \/ v = 3 -> exists E calls w w' rs, session E (fx_set v None) calls w = (w', Ok (Some (rs, true))) /\
  Forall (fun r => fst r = st_success) rs /\ w_err w' = "" /\
  Forall (fun e => match e with EWrite _ _ _ => False | _ => True end) (w_trace w') /\ calls = [[1; 2; 3; 4]; [5; 6; 7; 8]; [9; 10; 11; 12]] /\
  file_of E (w_trace w') (if v =? 2 then "out/0/0/0/0" else "out/data/root/0/c0/0/0") = Some [].
Proof.
  intros v [->| ->].
  - exists (fx_env (full_disk 2)), [[1; 2; 3; 4]; [5; 6; 7; 8]; [9; 10; 11; 12]], (mkworld [] 0 0 ""). eexists _, _. split; [vm_compute; reflexivity|]. split; [repeat constructor|]. split; [vm_compute; reflexivity|]. split; [repeat constructor|]. split; [reflexivity|vm_compute; reflexivity].
  - exists (fx_env (full_disk 3)), [[1; 2; 3; 4]; [5; 6; 7; 8]; [9; 10; 11; 12]], (mkworld [] 0 0 ""). eexists _, _. split; [vm_compute; reflexivity|]. split; [repeat constructor|]. split; [vm_compute; reflexivity|]. split; [repeat constructor|]. split; [reflexivity|vm_compute; reflexivity].
Qed.
Print Assumptions C22_v2_s3.
Print Assumptions C22_error_is_permanent.
Print Assumptions C22_v3_refuted.
Print Assumptions C22_v2_any_schedule_partial.
Print Assumptions C22_v2_recorded_at_stop.
Print Assumptions C22_race_refuted.
Print Assumptions C22_at_destroy_refuted.
Print Assumptions C23_files_never_report.
Print Assumptions C23_refuted.
