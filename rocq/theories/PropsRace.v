(** C54: no job touches variables of a call that has returned. C55: the error of the stream is not touched by two threads at once. All schedules. *)
Require Import ZArith List Bool String Lia.
Require Import Verif.Base Verif.Dim Verif.Radix Verif.World Verif.Writer Verif.Pool Verif.PoolSpec Verif.PoolProofs Verif.PoolRun Verif.Jobs Verif.JobProofs Verif.RaceSpec Verif.RaceProofs Verif.PropsPool Verif.PropsJobs.
Require Verif.PropsReport.
Import ListNotations.
Open Scope string_scope. Open Scope list_scope. Open Scope Z_scope.

(** *** C54 *)
(** Jobs that count the latch down last: once the client has got past the latch, whatever happens afterwards, the job is not waiting in the queue and no
    worker is in the middle of it. *)
Theorem C54_jobs_that_count_last : forall D h n c (d : D) t1 t2 s, disciplined false 0 c -> steps h (init n c d) (t1 ++ LPass :: t2) s ->
  forall id j, In (LAccept id j) t1 -> counts_last j -> ~ queued s id /\ ~ uses_frame s id.
Proof.
  intros D h n c d t1 t2 s Hc H id j HA HJ. change (LPass :: t2) with ([LPass] ++ t2) in H. rewrite app_assoc in H. apply steps_split in H as (s1 & H1 & H2).
  pose proof (over_after_pass h n c d t1 s1 Hc H1 id j HA HJ) as O. destruct (hist_steps h n c d _ _ H1) as [I _].
  destruct (over_steps h id s1 t2 s I O H2) as (_ & Q & U). auto.
Qed.
(** the jobs of a flush and of the compression are such jobs *)
Lemma library_jobs_count_last E wt cis pr bpp i : counts_last (v2_pool_job E i) /\ counts_last (v3_pool_job E wt cis i) /\ counts_last (compress_pool_job E pr bpp i).
Proof.
  split; [|split].
  - exists (firstn 1 (v2_pool_job E i)). split; reflexivity.
  - exists (Act (fun _ aw => ((false, ""%string), aw)) :: v3_steps E i true (nth i cis []) ++ (if wt then [v3_step false (fun _ => v3_table E i)] else [])).
    split; [unfold v3_pool_job; cbn [app]; rewrite <- app_assoc; reflexivity|].
    change (cds (v3_steps E i true (nth i cis []) ++ (if wt then [v3_step false (fun _ => v3_table E i)] else [])) = 0%nat). rewrite cds_app, cds_v3_steps. destruct wt; reflexivity.
  - exists (firstn 1 (compress_pool_job E pr bpp i)). split; reflexivity.
Qed.
Theorem C54_flush_and_compress_partial : forall E n c (d : AW) t1 t2 s, disciplined false 0 c -> steps on_error (init n c d) (t1 ++ LPass :: t2) s ->
  forall id j, In (LAccept id j) t1 ->
  (exists i, j = v2_pool_job E i) \/ (exists write_table cis i, j = v3_pool_job E write_table cis i) \/ (exists params bpp i, j = compress_pool_job E params bpp i) ->
  ~ queued s id /\ ~ uses_frame s id.
Proof.
  intros E n c d t1 t2 s Hc H id j HA HJ. eapply C54_jobs_that_count_last; eauto.
  destruct HJ as [(i & ->)|[(wt & cis & i & ->)|(pr & bpp & i & ->)]]; [exact (proj1 (library_jobs_count_last E true [] (mkblosc "" 0 0) 0 i))|exact (proj1 (proj2 (library_jobs_count_last E wt cis (mkblosc "" 0 0) 0 i)))|exact (proj2 (proj2 (library_jobs_count_last E true [] pr bpp i)))].
Qed.

(** make_files_ does not: a job counts down, and then uses the flag all_successful, which is a variable of make_files_. No request fails, one file, one
    worker: the call has returned true, and the worker is about to change the byte where its variable used to be. *)
Definition in_the_middle (id : nat) (w : option (worker mk)) : bool := match w with Some (WRun k (Act _ :: _) _) => Nat.eqb k id | _ => false end.
Lemma middle_uses id (s : state mk) i : in_the_middle id (nth_error (workers s) i) = true -> uses_frame s id.
Proof.
  unfold in_the_middle. destruct (nth_error (workers s) i) as [[| | |k [|[f|] r] l| |]|] eqn:W; try discriminate. intros H. apply Nat.eqb_eq in H. subst k. exists i, (Act f), r, l. exact W.
Qed.
Definition passes {D} (x : label D) : bool := match x with LPass => true | _ => false end.
Lemma passes_in {D} (t : list (label D)) : existsb passes t = true -> In LPass t.
Proof. intros H. apply existsb_exists in H as (x & X & Y). destruct x; try discriminate. exact X. Qed.
Lemma first_job n c (d : mk) t s : steps mk_error (init n c d) t s -> Nat.eqb (accepted s) 1 = true -> forall id j, In (LAccept id j) t -> id = 0%nat.
Proof. intros H A id j HI. destruct (hist_steps mk_error n c d t s H) as [_ HH]. pose proof (accept_lt t s id j HH HI). apply Nat.eqb_eq in A. lia. Qed.
Theorem C54_make_files_refuted : exists E n t s id p, (forall k, e_fault E k = false) /\ (forall k q, e_stat E k q = true) /\
  steps mk_error (init n (make_files_prog E [p] CRet) mk0) t s /\ In (LAccept id (file_pool_job E 0 p)) t /\
  prog s = CRet /\ m_out (data s) = Some true /\ uses_frame s id.
Proof.
  destruct (run_check mk_error [W 0; W 0; C 0; C 0; C 0; W 0; W 0; W 0; W 0; C 0; C 0] (init 1 (make_files_prog jx_env ["f"] CRet) mk0)
    (fun t s => match prog s, m_out (data s) with CRet, Some true => in_the_middle 0 (nth_error (workers s) 0) && existsb passes t && Nat.eqb (accepted s) 1 | _, _ => false end)) as (t & s & R & O); [vm_compute; reflexivity|].
  destruct (prog s) eqn:P; try discriminate. destruct (m_out (data s)) as [[]|] eqn:M; try discriminate. apply andb_prop in O as [O O3]. apply andb_prop in O as [O1 O2].
  exists jx_env, 1%nat, t, s, 0%nat, "f". split; [reflexivity|]. split; [reflexivity|]. split; [exact R|].
  destruct (batch_accepted _ _ _ _ _ _ _ R (passes_in t O2) (file_pool_job jx_env 0 "f")) as (id & Hid); [left; reflexivity|].
  pose proof (first_job _ _ _ _ _ R O3 id _ Hid). subst id. split; [exact Hid|]. split; [exact P|]. split; [exact M|]. exact (middle_uses 0 s 0 O1).
Qed.
(** The same in make_dirs_ when a directory cannot be made. *)
Theorem C54_make_dirs_refuted : exists E n t s id p, steps mk_error (init n (make_dirs_prog E [p] CRet) mk0) t s /\ In (LAccept id (dir_pool_job E p)) t /\
  prog s = CRet /\ m_out (data s) = Some true /\ uses_frame s id.
Proof.
  destruct (run_check mk_error [W 0; W 0; C 0; C 0; C 0; W 0; W 0; W 0; W 0; C 0; C 0] (init 1 (make_dirs_prog bad_env ["out"] CRet) mk0)
    (fun t s => match prog s, m_out (data s) with CRet, Some true => in_the_middle 0 (nth_error (workers s) 0) && existsb passes t && Nat.eqb (accepted s) 1 | _, _ => false end)) as (t & s & R & O); [vm_compute; reflexivity|].
  destruct (prog s) eqn:P; try discriminate. destruct (m_out (data s)) as [[]|] eqn:M; try discriminate. apply andb_prop in O as [O O3]. apply andb_prop in O as [O1 O2].
  exists bad_env, 1%nat, t, s, 0%nat, "out". split; [exact R|].
  destruct (batch_accepted _ _ _ _ _ _ _ R (passes_in t O2) (dir_pool_job bad_env "out")) as (id & Hid); [left; reflexivity|].
  pose proof (first_job _ _ _ _ _ R O3 id _ Hid). subst id. split; [exact Hid|]. split; [exact P|]. split; [exact M|]. exact (middle_uses 0 s 0 O1).
Qed.
(** The hypotheses of the positive theorems can be met: one chunk compressed by one worker, which still runs (it has only to return). *)
Example C54_hypotheses : exists n c (d : AW) t1 t2 s id i, disciplined false 0 c /\ steps on_error (init n c d) (t1 ++ LPass :: t2) s /\
  In (LAccept id (compress_pool_job jx_env (mkblosc "lz4" 1 1) 1 0)) t1 /\ nth_error (workers s) i = Some (WRun id [] (true, "")) /\ fst (data s) <> fst d.
Proof.
  set (j := compress_pool_job jx_env (mkblosc "lz4" 1 1) 1 0). set (d := (jx_writer false, mkworld [] 0 0 "")).
  destruct (run_check on_error [W 0; W 0; C 0; C 0; C 0; W 0; W 0; W 0; W 0; C 0] (init 1 (batch [j] CRet) d)
    (fun t s => is_pass (last t LTau) && negb (existsb is_pass (removelast t)) && match nth_error (workers s) 0 with Some (WRun 0 [] (true, m)) => String.eqb m "" | _ => false end && Nat.eqb (accepted s) 1 &&
       negb (zs_eqb (nth 0 (a_bufs (fst (data s))) []) (nth 0 (a_bufs (fst d)) [])))) as (t & s & R & O); [vm_compute; reflexivity|].
  apply andb_prop in O as [O O5]. apply andb_prop in O as [O O4]. apply andb_prop in O as [O O3]. apply andb_prop in O as [O1 O2].
  destruct (last_pass t O1 O2) as (t1 & -> & N). exists 1%nat, (batch [j] CRet), d, t1, [], s, 0%nat, 0%nat.
  split; [apply batch_disciplined; repeat constructor|]. split; [exact R|]. split.
  { destruct (batch_accepted _ _ _ _ _ _ _ R ltac:(apply in_app_iff; right; left; reflexivity) j ltac:(left; reflexivity)) as (id & Hid).
    destruct (hist_steps on_error _ _ _ _ _ R) as [_ HH]. pose proof (accept_lt _ s id j HH Hid). apply Nat.eqb_eq in O4. assert (id = 0%nat) by lia. subst id. apply in_app_iff in Hid as [Hid|[Hid|[]]]; [exact Hid|discriminate]. }
  split; [destruct (nth_error (workers s) 0) as [[| | |[|k] [|] [[] m]| |]|]; try discriminate; apply String.eqb_eq in O3; subst m; reflexivity|].
  intros X. rewrite X in O5. vm_compute in O5. discriminate.
Qed.

(** *** C55 *)
(** Whatever the client does, if none of its jobs can fail then no worker ever writes the error, so no two threads ever touch it at once. *)
Theorem C55_no_failure_no_race : forall D h (G : D -> Prop) n c d t s, G d -> pushes_winners G c -> steps h (init n c d) t s -> forall reads, ~ error_race reads s.
Proof.
  intros D h G n c d t s HG Hc H reads. destruct (calmw_steps h G n c d t s HG Hc H) as [_ _ _ _ F].
  intros [(i & j & _ & (id & m & X) & _)|(i & (id & m & X) & _)]; exact (F _ _ _ X).
Qed.
Lemma batch_winners {D} (G : D -> Prop) (js : list (job D)) k : Forall (fun j => wins G j (true, "")) js -> pushes_winners G k -> pushes_winners G (batch js k).
Proof.
  intros H K. apply pw_latch. induction H as [|j js H1 H2 IH]; cbn [pushes]; [apply pw_wait; exact K|]. apply pw_push; [exact H1|]. intros []; [exact IH|apply pw_ret].
Qed.

Section Win.
Variables (E : env) (ps : list string) (sk : writer) (nt no : nat).
Hypothesis HE : forall k, e_fault E k = false.
Hypothesis HS : a_sinks sk = map open_file ps.
Let G := steady sk nt no.
Lemma own_keeps i f : own_step ps sk nt no i f -> forall l d, G d -> G (snd (f l d)).
Proof.
  intros (g & HG) l (a & w) H. rewrite (HG l a w H). destruct (g l _ _) as (((l' & t') & o') & ws). destruct H as (A & B & C). split; [exact A|]. cbn [fst snd put3 a_tables a_offsets set_tables set_offsets] in *. rewrite !upd_length. auto.
Qed.
Lemma v2_wins i : (i < List.length ps)%nat -> wins G (v2_pool_job E i) (true, "").
Proof.
  intros Hi. apply win_act. intros (a & w) H. split.
  - apply (own_keeps i _ (v2_own E ps sk nt no HE HS i _ Hi (or_introl eq_refl)) (true, "") (a, w) H).
  - rewrite (v2_body_open E ps sk nt no HE HS i a w H Hi). cbn [local_of fst]. apply win_count, win_end. reflexivity.
Qed.
Hypothesis HD : forall ci, exists idx, shard_internal_index (c_dims (a_cfg sk)) (Z.of_nat ci) = Ok idx.
Lemma v3_tab_total ci t o : (exists x, v3_tab sk ci t o = Ok x) \/ exists m, v3_tab sk ci t o = Throw m.
Proof.
  unfold v3_tab. destruct (HD ci) as (idx & ->). cbn [obind]. unfold table_set. destruct (_ <? _); cbn [obind]; [|eauto]. destruct (_ <? _); eauto.
Qed.
Lemma v3_steps_win s rest : (s < List.length ps)%nat -> (forall l, fst l = true -> wins G rest l) ->
  forall cs first l, fst l = true \/ (first = true /\ cs <> []) -> wins G (v3_steps E s first cs ++ rest) l.
Proof.
  intros Hi HR. induction cs as [|c cs IH]; intros first l Hl; cbn [v3_steps app]; [destruct Hl as [Hl|[_ Hl]]; [auto|congruence]|].
  apply win_act. intros (a & w) H.
  split.
  - destruct (first || fst l && (snd l =? "")%string) eqn:B; [|exact H]. rewrite (v3_chunk_open E ps sk nt no HE HS s (fst l) c a w H Hi). cbv zeta.
    destruct (v3_tab sk c _ _); cbn [snd]; destruct H as (A & B1 & C); split; auto; cbn [fst snd put3 a_tables a_offsets set_tables set_offsets] in *; rewrite ?upd_length; auto.
  - destruct (first || fst l && (snd l =? "")%string) eqn:B.
    + rewrite (v3_chunk_open E ps sk nt no HE HS s (fst l) c a w H Hi). cbv zeta.
      destruct (v3_tab_total c (nth s (a_tables a) []) (nth s (a_offsets a) 0)) as [(x & ->)|(m & ->)]; cbn [v3_local fst]; apply IH; auto.
    + cbn [fst]. apply IH. destruct Hl as [Hl|[-> _]]; [auto|discriminate].
Qed.
Lemma v3_wins wt cis i : (i < List.length ps)%nat -> nth i cis [] <> [] -> wins G (v3_pool_job E wt cis i) (true, "").
Proof.
  intros Hi Hc. unfold v3_pool_job. apply win_act. intros d H. cbn [fst snd]. split; [exact H|]. apply v3_steps_win; auto.
  intros l Hl. assert (X : forall l, fst l = true -> wins G [CountDown] l) by (intros; apply win_count, win_end; auto).
  destruct wt; cbn [app]; [|auto]. apply win_act. intros (a & w) HG. cbn [orb]. destruct (fst l && (snd l =? "")%string); [|split; auto].
  rewrite (v3_table_open E ps sk nt no HE HS i a w HG Hi). cbn [fst snd v3_local]. split; [|auto]. exact HG.
Qed.
End Win.

(** Flushing chunks to files when no request of the filesystem fails, by any number of workers: no race. *)
Theorem C55_v2_flush_partial : forall E ps n (d : AW) t s reads, (forall i, e_fault E i = false) ->
  a_sinks (fst d) = map (fun p => Some (SFile (mkfsink p true))) ps ->
  steps on_error (init n (batch (map (v2_pool_job E) (seq 0 (List.length ps))) CRet) d) t s -> ~ error_race reads s.
Proof.
  intros E ps n d t s reads HE HS H. eapply (C55_no_failure_no_race _ _ (steady (skel (fst d)) (List.length (a_tables (fst d))) (List.length (a_offsets (fst d))))); [repeat split| |exact H].
  apply batch_winners; [|apply pw_ret]. apply Forall_forall. intros j Hj. apply in_map_iff in Hj as (i & <- & Hi). apply in_seq in Hi. apply (v2_wins E ps); auto. lia.
Qed.
(** The same for shards; every shard has a chunk, and the position of a chunk in its shard can be computed. *)
Theorem C55_v3_flush_partial : forall E ps n (d : AW) t s reads write_table cis, (forall i, e_fault E i = false) ->
  a_sinks (fst d) = map (fun p => Some (SFile (mkfsink p true))) ps ->
  (forall i, (i < List.length ps)%nat -> nth i cis [] <> []) -> (forall ci, exists idx, shard_internal_index (c_dims (a_cfg (fst d))) (Z.of_nat ci) = Ok idx) ->
  steps on_error (init n (batch (map (v3_pool_job E write_table cis) (seq 0 (List.length ps))) CRet) d) t s -> ~ error_race reads s.
Proof.
  intros E ps n d t s reads wt cis HE HS HC HD H. eapply (C55_no_failure_no_race _ _ (steady (skel (fst d)) (List.length (a_tables (fst d))) (List.length (a_offsets (fst d))))); [repeat split| |exact H].
  apply batch_winners; [|apply pw_ret]. apply Forall_forall. intros j Hj. apply in_map_iff in Hj as (i & <- & Hi). apply in_seq in Hi. apply (v3_wins E ps); auto; try lia. apply HC. lia.
Qed.
(** Compressing, when the compressor takes everything; opening files, whatever happens. *)
Theorem C55_compress_partial : forall E params bpp m n (d : AW) t s reads, (forall b, e_compress E params bpp b <> None) ->
  steps on_error (init n (batch (map (compress_pool_job E params bpp) (seq 0 m)) CRet) d) t s -> ~ error_race reads s.
Proof.
  intros E params bpp m n d t s reads HC H. eapply (C55_no_failure_no_race _ _ (fun _ => True)); [exact I| |exact H].
  apply batch_winners; [|apply pw_ret]. apply Forall_forall. intros j Hj. apply in_map_iff in Hj as (i & <- & Hi). apply win_act. intros (a & w) _. split; [exact I|].
  unfold compress_body. rewrite bind_run. cbn [getA fst]. specialize (HC (nth i (a_bufs a) [])). destruct (e_compress E params bpp (nth i (a_bufs a) [])); [|congruence]. cbn. apply win_count, win_end. reflexivity.
Qed.
Theorem C55_make_files : forall E ps n d t s reads, steps mk_error (init n (make_files_prog E ps CRet) d) t s -> ~ error_race reads s.
Proof.
  intros E ps n d t s reads H. eapply (C55_no_failure_no_race _ _ (fun _ => True)); [exact I| |exact H].
  apply batch_winners; [|apply pw_do; intros; split; [exact I|apply pw_ret]]. apply Forall_forall. intros j Hj. apply in_map_iff in Hj as ([i p] & <- & Hi). apply win_act. intros x _. split; [exact I|].
  cbn [fst snd]. assert (K : forall l, fst l = true -> wins (fun _ : mk => True) (skipn 1 (file_pool_job E i p)) l).
  { intros l Hl. apply win_count, win_act. intros y _. split; [exact I|]. apply win_end. exact Hl. }
  destruct (m_all x); [|apply K; reflexivity]. destruct (file_sink_returns E p (m_world x)) as (w' & f & R & _). rewrite R. apply K. reflexivity.
Qed.

(** Refuted: the compressor fails on two chunks (so it does on all chunks with settings whose compressor is None, C32); two workers are both about to
    assign the error, or one of them is while the client, which has got past the latch, looks at the error at the beginning of the next append. *)
Definition err_job (i : nat) : job AW := compress_pool_job (PropsReport.rx_env 0) (mkblosc "unrecognized codec" 1 1) 1 i.
Definition next_append : client AW := CDo (fun d => d) (fun d => if String.eqb (w_err (snd d)) "" then CRet else CRet).
Definition handling (s : state AW) (i : nat) : bool := match nth_error (workers s) i with Some (WHandle _ _) => true | _ => false end.
Lemma handling_writes s i : handling s i = true -> writes_error s i.
Proof. unfold handling, writes_error. destruct (nth_error (workers s) i) as [[]|]; try discriminate. eauto. Qed.
Theorem C55_two_failures_refuted : exists n d t s, steps on_error (init n (batch [err_job 0; err_job 1] next_append) d) t s /\
  exists i j, i <> j /\ writes_error s i /\ writes_error s j.
Proof.
  destruct (run_check on_error [C 0; C 0; C 0; C 1; C 1; W 0; W 0; W 1; W 1; W 1; W 0; W 0; W 0; W 1; W 1] (init 2 (batch [err_job 0; err_job 1] next_append) (jx_writer false, mkworld [] 0 0 ""))
    (fun t s => handling s 0 && handling s 1)) as (t & s & R & O); [vm_compute; reflexivity|].
  apply andb_prop in O as [O1 O2]. exists 2%nat, (jx_writer false, mkworld [] 0 0 ""), t, s. split; [exact R|]. exists 0%nat, 1%nat. split; [discriminate|]. split; apply handling_writes; auto.
Qed.
(** the next thing the client does is a step on the data: after the batch, that is the look at the error *)
Definition looks (c : client AW) : Prop := match c with CDo _ _ => True | _ => False end.
Theorem C55_append_refuted : exists n d t s, steps on_error (init n (batch [err_job 0] next_append) d) t s /\ In LPass t /\
  (exists i, writes_error s i) /\ looks (prog s).
Proof.
  destruct (run_check on_error [W 0; W 0; C 0; C 0; C 0; W 0; W 0; W 0; W 0; C 0; W 0] (init 1 (batch [err_job 0] next_append) (jx_writer false, mkworld [] 0 0 ""))
    (fun t s => handling s 0 && existsb passes t && match prog s with CDo _ _ => true | _ => false end)) as (t & s & R & O); [vm_compute; reflexivity|].
  apply andb_prop in O as [O O3]. apply andb_prop in O as [O1 O2]. exists 1%nat, (jx_writer false, mkworld [] 0 0 ""), t, s. split; [exact R|]. split; [apply passes_in; auto|].
  split; [exists 0%nat; apply handling_writes; auto|]. destruct (prog s); try discriminate. exact I.
Qed.
(** The hypotheses of the positive theorems can be met: the flush of two chunks (v2) and of two shards (v3) of PropsJobs. *)
Example C55_hypotheses : (forall i, e_fault jx_env i = false) /\ (forall v3, a_sinks (fst (jx_start v3)) = map (fun p => Some (SFile (mkfsink p true))) (jx_paths v3)) /\
  (forall i, (i < 2)%nat -> nth i [[0%nat]; [1%nat]] [] <> []) /\ (forall ci, exists idx, shard_internal_index (c_dims (a_cfg (fst (jx_start true)))) (Z.of_nat ci) = Ok idx) /\
  (forall b, e_compress jx_env (mkblosc "lz4" 1 1) 1 b <> None).
Proof.
  split; [reflexivity|]. split; [intros []; vm_compute; reflexivity|]. split; [intros [|[|i]] Hi; try discriminate; lia|]. split; [|discriminate].
  intros ci. replace (c_dims (a_cfg (fst (jx_start true)))) with jx_dims by (vm_compute; reflexivity). unfold shard_internal_index, jx_dims. eexists. cbn. reflexivity.
Qed.

Print Assumptions C54_jobs_that_count_last.
Print Assumptions C54_flush_and_compress_partial.
Print Assumptions C54_make_files_refuted.
Print Assumptions C54_make_dirs_refuted.
Print Assumptions C55_no_failure_no_race.
Print Assumptions C55_v2_flush_partial.
Print Assumptions C55_v3_flush_partial.
Print Assumptions C55_compress_partial.
Print Assumptions C55_make_files.
Print Assumptions C55_two_failures_refuted.
Print Assumptions C55_append_refuted.
