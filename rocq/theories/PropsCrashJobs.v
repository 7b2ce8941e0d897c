(** C37 at every moment of a flush, whatever the schedule of its jobs on the thread pool. Vocabulary: CrashSpec.v, PoolSpec.v, Jobs.v. *)
Require Import ZArith List Bool String Ascii Lia.
Require Import Verif.Base Verif.Spec Verif.Dim Verif.Limits Verif.World Verif.Writer Verif.Stream Verif.Api
  Verif.SettingsSpec Verif.SessionSpec Verif.PyramidSpec Verif.StoreSpec Verif.MetaSpec Verif.CrashSpec Verif.CrashStore Verif.PropsCrash
  Verif.Pool Verif.PoolSpec Verif.PoolProofs Verif.PoolBatch Verif.Jobs Verif.JobProofs Verif.JobCrash Verif.Examples Verif.ExamplesUse.
Import ListNotations.
Open Scope string_scope. Open Scope list_scope. Open Scope Z_scope.

(** The session reaches a flush of the files [ps]: the writer and the world are [data s0], the jobs of the flush are about to be pushed,
    and if they ran one after the other ([one]) the session would go on from [aw'] and make the events [rest]. *)
Definition at_flush (u : use) (groups : list (list (list Z))) (ps : list string) (jobs : nat -> job AW) (one : nat -> M AW unit) (s0 : state AW) : Prop :=
  NoDup ps /\ idle s0 /\
  a_sinks (fst (data s0)) = map (fun p => Some (SFile (mkfsink p true))) ps /\
  (exists k, prog s0 = batch (map jobs (seq 0 (List.length ps))) k) /\
  exists aw' rest, miter one (seq 0 (List.length ps)) (data s0) = (aw', Ok tt) /\
    w_trace (after u groups) = w_trace (snd aw') ++ rest /\ forall p, ~ In (ERemoveAll p) rest.

Lemma moment_in_batch all doc ps tr0 L F rest : all = (tr0 ++ F) ++ rest -> (forall p, ~ In (ERemoveAll p) rest) -> ~ In doc ps ->
  Forall (write_to ps) L -> Forall (write_to ps) F -> (forall p, exists M R, F = M ++ R /\ filter (concerns p) L = filter (concerns p) M) ->
  dies_in_batch all doc (tr0 ++ L).
Proof.
  intros -> HR HD FL FF HM. exists tr0, (F ++ rest). split; [rewrite app_assoc; reflexivity|]. split.
  { intros p Hp. apply in_app_iff in Hp as [Hp|Hp]; [|exact (HR p Hp)]. destruct (proj1 (Forall_forall _ _) FF _ Hp) as (? & ? & ? & _ & X). discriminate. }
  split.
  - rewrite filter_app. replace (filter (concerns doc) L) with (@nil event); [apply app_nil_r|]. clear -FL HD. induction FL as [|e L (q & off & dat & Hq & ->) _ IH]; cbn; auto. rewrite (proj2 (String.eqb_neq q doc)); auto. intros ->. contradiction.
  - intros p. destruct (HM p) as (M & R & -> & E). exists M, (R ++ rest). split; [rewrite app_assoc; reflexivity|]. rewrite !filter_app, E. reflexivity.
Qed.

(** *** v2: at every moment between the first push and the return of the wait, the array documents promise only what is on disk *)
Theorem C37_v2_any_schedule : forall u groups,
  fair_use u -> whole_frames u groups -> st_version (u_set u) = 2 -> st_s3 (u_set u) = None ->
  exists G, level_frames u (List.concat groups) G /\
    forall ps n prog0 d0 t0 s0 t s,
      disciplined false 0 prog0 -> steps on_error (init n prog0 d0) t0 s0 ->
      at_flush u groups ps (v2_pool_job (u_env u)) (v2_job (u_env u)) s0 ->
      steps on_error s0 t s -> ~ In LPass t ->
      forall i c, is_level u i -> ~ In (array_path u i) ps ->
      may_be_found (u_env u) (w_trace (snd (data s))) (array_path u i) (Some c) ->
      c = [] \/ exists k s0, declares u i k s0 c /\ 0 <= k <= zlen (G i) /\
        forall q cc x, 0 <= q -> q * d_chunk (at_level i (u_d0 u)) < s0 -> in_bounds (map nch (lv_inner u i)) cc ->
          may_be_found (u_env u) (w_trace (snd (data s))) (path_of_coords (u_root u ++ "/" ++ dec (Z.of_nat i)) (q :: cc)) x ->
          exists raw, x = Some raw /\ raw = u_enc u (u_dec u raw) /\
            chunk_holds (u_bpp u) (lv_A u i) (lv_H u i) (lv_W u i) (G i) (map d_chunk (lv_dims u i)) (q :: cc) (u_dec u raw).
Proof.
  intros u groups HU HG V S3. pose proof (fu_fs _ HU) as HE. destruct (C37_v2_in_batch u groups HU HG V S3) as (G & A & B). exists G. split; auto.
  intros ps n c0 d0 t0 s0 t s Hc HR (HP & HI & HK & (k & HPr) & aw' & rest & HM & HT & HN') HS HN i c Hi Hd. apply B; auto.
  destruct (flush_moment (u_env u) ps HP (v2_pool_job (u_env u)) (v2_job (u_env u))) with (n := n) (c := c0) (d := d0) (t0 := t0) (s0 := s0) (t := t) (s := s) (k := k) (aw' := aw') as (L & F & EL & EF & FL & FF & X); auto.
  - intros sk nt no j f H1 H2 H3. eapply v2_own; eauto.
  - intros j aw aw1. apply v2_job_alone.
  - intros j. exists (firstn 1 (v2_pool_job (u_env u) j)). split; reflexivity.
  - intros j (a & w) aw2 Hj ST _. unfold v2_pool_job. cbn [alone]. rewrite (v2_body_open (u_env u) ps (skel (fst (data s0))) _ _ HE HK j a w ST Hj). reflexivity.
  - rewrite EL. eapply moment_in_batch; eauto. rewrite HT, EF. reflexivity.
Qed.

(** *** v3: the same for the shards that are full *)
Theorem C37_v3_any_schedule_partial : forall u groups,
  fair_use u -> whole_frames u groups -> st_version (u_set u) = 3 -> st_s3 (u_set u) = None ->
  exists G, level_frames u (List.concat groups) G /\
    forall ps write_table cis n prog0 d0 t0 s0 t s,
      disciplined false 0 prog0 -> steps on_error (init n prog0 d0) t0 s0 ->
      at_flush u groups ps (v3_pool_job (u_env u) write_table cis) (v3_job (u_env u) write_table cis) s0 ->
      (forall j, (j < List.length ps)%nat -> nth j cis [] <> []) ->
      steps on_error s0 t s -> ~ In LPass t ->
      forall i c, is_level u i -> ~ In (array_path u i) ps ->
      may_be_found (u_env u) (w_trace (snd (data s))) (array_path u i) (Some c) ->
      c = [] \/ exists k s0, declares u i k s0 c /\ 0 <= k <= zlen (G i) /\
        let shards := map d_shard (lv_inner u i) in
        let N := prodZ (map d_shard (lv_dims u i)) in
        let S0 := d_shard (at_level i (u_d0 u)) in
        forall sh sc x, 0 <= sh -> (sh + 1) * lv_shard_period u i <= k -> in_bounds (map nsh (lv_inner u i)) sc ->
          may_be_found (u_env u) (w_trace (snd (data s))) (shard_key (u_root u ++ "/data/root/" ++ dec (Z.of_nat i)) (sh :: sc)) x ->
          exists file, x = Some file /\ index_ok file N /\
            forall cc, in_bounds (map nch (lv_inner u i)) cc -> zip_with Z.div cc shards = sc ->
            exists raw,
              shard_chunk file N (ravel (map d_shard (lv_dims u i)) (0 :: zip_with Z.modulo cc shards)) = Some raw /\
              raw = u_enc u (u_dec u raw) /\
              chunk_holds (u_bpp u) (lv_A u i) (lv_H u i) (lv_W u i) (G i) (map d_chunk (lv_dims u i)) ((sh * S0 + S0 - 1) :: cc) (u_dec u raw).
Proof.
  intros u groups HU HG V S3. pose proof (fu_fs _ HU) as HE. destruct (C37_v3_in_batch_partial u groups HU HG V S3) as (G & A & B). exists G. split; auto.
  intros ps tb cis n c0 d0 t0 s0 t s Hc HR (HP & HI & HK & (k & HPr) & aw' & rest & HM & HT & HN') HQ HS HN i c Hi Hd. apply B; auto.
  destruct (flush_moment (u_env u) ps HP (v3_pool_job (u_env u) tb cis) (v3_job (u_env u) tb cis)) with (n := n) (c := c0) (d := d0) (t0 := t0) (s0 := s0) (t := t) (s := s) (k := k) (aw' := aw') as (L & F & EL & EF & FL & FF & X); auto.
  - intros sk nt no j f H1 H2 H3. eapply v3_own; eauto.
  - intros j aw aw1. apply v3_job_alone.
  - intros j. exists (Act (fun _ aw => ((false, ""%string), aw)) :: v3_steps (u_env u) j true (nth j cis []) ++ (if tb then [v3_step false (fun _ => v3_table (u_env u) j)] else [])). split; [unfold v3_pool_job; cbn [app]; rewrite <- app_assoc; reflexivity|].
    change (cds (v3_steps (u_env u) j true (nth j cis []) ++ (if tb then [v3_step false (fun _ => v3_table (u_env u) j)] else [])) = 0%nat). rewrite cds_app, cds_v3_steps. destruct tb; reflexivity.
  - intros j aw1 aw2 Hj ST HQ'. exact (v3_success (u_env u) (skel (fst (data s0))) _ _ ps tb cis j aw1 aw2 HE HK Hj (HQ j Hj) ST HQ').
  - rewrite EL. eapply moment_in_batch; eauto. rewrite HT, EF. reflexivity.
Qed.

(** *** Both versions: the second flush of a session of seven frames. Its files and buffers are read off the session's own events. *)
Definition hx_use (v3 : bool) : use := ex_comp (if v3 then 3 else 2) false false.
Definition hx_v2 : list event := Eval vm_compute in w_trace (after (hx_use false) (ex_groups 1 7)).
Definition hx_v3 : list event := Eval vm_compute in w_trace (after (hx_use true) (ex_groups 1 7)).
Definition hx_all (v3 : bool) : list event := if v3 then hx_v3 else hx_v2.
Lemma hx_all_ok v3 : w_trace (after (hx_use v3) (ex_groups 1 7)) = hx_all v3.
Proof. destruct v3; vm_compute; reflexivity. Qed.
(** the number of events before the writes of the flush, and of its files *)
Definition hx_from (v3 : bool) : nat := if v3 then 90 else 128.
Definition hx_files (v3 : bool) : nat := if v3 then 8 else 18.
Definition hx_paths (v3 : bool) : list string :=
  flat_map (fun e => match e with EOpen p => [p] | _ => [] end) (firstn (hx_files v3) (skipn (hx_from v3 - hx_files v3) (hx_all v3))).
Definition hx_bytes (v3 : bool) : list (list Z) :=
  flat_map (fun e => match e with EWrite _ _ d => if zlen d =? 25 then [d] else [] | _ => [] end) (skipn (hx_from v3) (hx_all v3)).
Definition hx_cis : list (list nat) := match chunks_in_shards (u_dims (hx_use true)) 8 18 with Ok l => l | _ => [] end.
Definition hx_bufs (v3 : bool) : list (list Z) :=
  if v3 then map (fun c => snd (nth 0 (filter (fun x => Nat.eqb (fst x) c) (combine (List.concat hx_cis) (hx_bytes true))) (0%nat, []))) (seq 0 18) else hx_bytes false.
Definition hx_data (v3 : bool) : AW :=
  (set_sinks (set_bufs match make_writer v3 (mkconfig (u_dims (hx_use v3)) dt_uint8 0 None "out" None) with Ok a => a | _ => mkwriter (mkconfig [] 0 0 None "" None) v3 [] 0 0 0 false [] None [] [] end (hx_bufs v3))
     (map (fun p => Some (SFile (mkfsink p true))) (hx_paths v3)), mkworld (firstn (hx_from v3) (hx_all v3)) 0 0 "").
Definition hx_one (v3 : bool) : nat -> M AW unit := if v3 then v3_job (u_env (hx_use v3)) true hx_cis else v2_job (u_env (hx_use v3)).
Definition hx_job (v3 : bool) : nat -> job AW := if v3 then v3_pool_job (u_env (hx_use v3)) true hx_cis else v2_pool_job (u_env (hx_use v3)).
Definition hx_end (v3 : bool) : AW * outcome unit := miter (hx_one v3) (seq 0 (List.length (hx_paths v3))) (hx_data v3).

Example C37_any_schedule_hypotheses : forall v3,
  fair_use (hx_use v3) /\ whole_frames (hx_use v3) (ex_groups 1 7) /\ is_level (hx_use v3) 0 /\
  let s0 := init 2 (batch (map (hx_job v3) (seq 0 (List.length (hx_paths v3)))) CRet) (hx_data v3) in
  at_flush (hx_use v3) (ex_groups 1 7) (hx_paths v3) (hx_job v3) (hx_one v3) s0 /\
  List.length (hx_paths v3) = hx_files v3 /\ ~ In (array_path (hx_use v3) 0) (hx_paths v3) /\
  (forall j, (j < 8)%nat -> nth j hx_cis [] <> []) /\
  exists c, c <> [] /\ may_be_found (u_env (hx_use v3)) (w_trace (snd (data s0))) (array_path (hx_use v3) 0) (Some c).
Proof.
  intros v3. split; [apply ex_comp_fair; destruct v3; auto|]. split; [apply ex_frames_whole; lia|]. split; [left; reflexivity|]. cbv zeta. split; [|split; [|split; [|split]]].
  - split; [|split; [|split; [|split]]].
    + assert (N : nodup string_dec (hx_paths v3) = hx_paths v3) by (destruct v3; vm_compute; reflexivity). rewrite <- N. apply NoDup_nodup.
    + split; [reflexivity|]. intros w Hw. cbn in Hw. destruct Hw as [<-|[<-|[]]]; repeat split; intros; discriminate.
    + reflexivity.
    + eexists. reflexivity.
    + exists (fst (hx_end v3)), (skipn (List.length (w_trace (snd (fst (hx_end v3))))) (hx_all v3)). split; [|split].
      * destruct v3; vm_compute; reflexivity.
      * rewrite hx_all_ok. destruct v3; vm_compute; reflexivity.
      * intros p H. destruct v3; vm_compute in H; decompose [or] H; try discriminate; contradiction.
  - destruct v3; reflexivity.
  - destruct v3; vm_compute; intuition discriminate.
  - intros j Hj. do 8 (destruct j as [|j]; [vm_compute; discriminate|]). lia.
  - destruct (file_of (u_env (hx_use v3)) (w_trace (snd (hx_data v3))) (array_path (hx_use v3) 0)) as [c|] eqn:F; [|exfalso; destruct v3; vm_compute in F; discriminate].
    exists c. split.
    + intros ->. destruct v3; vm_compute in F; discriminate.
    + exists (w_trace (snd (hx_data v3))), []. rewrite app_nil_r. auto.
Qed.

Print Assumptions C37_v2_any_schedule.
Print Assumptions C37_v3_any_schedule_partial.

