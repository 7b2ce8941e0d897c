(** C21 for the S3 store: the parallel write jobs of a flush, for all schedules. *)
Require Import ZArith List Bool String Lia.
Require Import Verif.Base Verif.Dim Verif.World Verif.Writer Verif.Radix Verif.SinkProofs Verif.Pool Verif.PoolSpec Verif.PoolProofs Verif.PoolRun Verif.PoolBatch Verif.Jobs Verif.JobProofs Verif.UploadSpec Verif.JobS3 Verif.JobClose Verif.PropsJobs.
Import ListNotations.
Open Scope string_scope. Open Scope list_scope. Open Scope Z_scope.

(** The sinks of a flush to bucket [b]: sink i stores object [nth i ks ""] and takes a write at offset [off i]. *)
Definition s3_sinks (b : string) (ks : list string) (off : nat -> Z) (a : writer) : Prop :=
  List.length (a_sinks a) = List.length ks /\
  forall i, (i < List.length ks)%nat -> exists s, nth i (a_sinks a) None = Some (SS3 s) /\ World.s_bucket s = b /\ s_key s = nth i ks "" /\ ready s (off i).
Lemma calm_start b ks off d : s3_sinks b ks off (fst d) -> (0 < w_conns (snd d))%nat ->
  calm3 b ks (skel3 (fst d)) (List.length (a_tables (fst d))) (List.length (a_offsets (fst d))) (w_conns (snd d)) d.
Proof.
  intros [L H] HC. split; auto. split; auto. split; auto. split; auto. split; auto. split; auto. intros i Hi. destruct (H i Hi) as (s & A & B & C & D & _). exists s. split; auto. split; auto.
Qed.
Lemma calm_slots b ks sk nt no cn d : calm3 b ks sk nt no cn d -> slots_ok (map (fun k => (b, k)) ks) d.
Proof.
  intros (_ & _ & _ & L & _ & _ & H). split; [rewrite map_length; auto|]. rewrite map_length. intros i Hi. destruct (H i Hi) as (s & -> & N & B & K). cbn [slot_ok]. split; auto. rewrite (nth_indep _ _ (b, ""%string)) by (rewrite map_length; auto). rewrite (map_nth (fun k => (b, k)) ks ""%string i). congruence.
Qed.
Lemma close_calm E b ks sk nt no cn x y : (forall i, e_s3 E i = true) -> NoDup ks -> same_uploads E x y -> calm3 b ks sk nt no cn x -> calm3 b ks sk nt no cn y ->
  let '(x', r) := close_sinks E x in let '(y', r') := close_sinks E y in r = r' /\ same_uploads E x' y'.
Proof.
  intros HE HP HS CX CY. refine (close_same E HE (map (fun k => (b, k)) ks) x y _ (calm_slots _ _ _ _ _ _ _ CX) (calm_slots _ _ _ _ _ _ _ CY) HS _).
  - apply FinFun.Injective_map_NoDup; auto. intros u v X. congruence.
  - destruct CX as (_ & _ & _ & _ & A & B & _). lia.
Qed.

(** As C21_v2_flush_any_schedule: the client of any disciplined program is about to run the write jobs of a flush, and [s] is any state in which it has
    just got past the latch; [aw'] is what the sequential model computes. The chunks go to objects with different keys, and no request fails. Then,
    whatever the interleaving, everything is as in the sequential model, except that the ids of uploads may differ (same_uploads): the error, the
    buffered bytes, the uploaded parts, all objects. And when the client then closes the sinks, the outcome and all objects are again the same. *)
Theorem C21_v2_s3_any_schedule : forall E b ks n c d t0 (s0 : state AW) t s k aw',
  (forall i, e_s3 E i = true) -> NoDup ks -> (0 < w_conns (snd (data s0)))%nat ->
  disciplined false 0 c -> steps on_error (init n c d) t0 s0 -> idle s0 ->
  s3_sinks b ks (fun _ => 0) (fst (data s0)) -> a_tables (fst (data s0)) = [] -> a_offsets (fst (data s0)) = [] ->
  (forall i, (i < List.length ks)%nat -> zlen (nth i (a_bufs (fst (data s0))) []) < 2 ^ 64) ->
  prog s0 = batch (map (v2_pool_job E) (seq 0 (List.length ks))) k ->
  miter (v2_job E) (seq 0 (List.length ks)) (data s0) = (aw', Ok tt) ->
  steps on_error s0 (t ++ [LPass]) s -> ~ In LPass t ->
  prog s = k /\ idle s /\ same_uploads E (data s) aw' /\
  let '(x, r) := close_sinks E (data s) in let '(y, r') := close_sinks E aw' in r = r' /\ same_uploads E x y.
Proof.
  intros E b ks n c d t0 s0 t s k aw' HE HP HC Hc HR HI HS HT HO HB HPr HM HS' HN. pose proof (calm_start b ks _ (data s0) HS HC) as C0.
  destruct (flush_any_order3 E b ks (skel3 (fst (data s0))) (List.length (a_tables (fst (data s0)))) (List.length (a_offsets (fst (data s0)))) (w_conns (snd (data s0))) (v2_pool_job E) (v2_job E) n c d t0 s0 t s k aw' HE HP) as (A & B & C & D & F); auto.
  - rewrite HT. cbn. lia.
  - rewrite HO. cbn. lia.
  - intros i f H. apply (v2_own3 E b ks _ _ _ _ HE i f H).
  - intros i aw aw1. apply v2_job_alone.
  - intros i. exists (firstn 1 (v2_pool_job E i)). split; reflexivity.
  - intros i aw1 aw2 Hi C1 PJ _. destruct HS as [_ HS]. destruct (HS i Hi) as (s1 & NS & _ & _ & R). pose proof C1 as (_ & _ & _ & _ & _ & _ & CN). destruct (CN i Hi) as (s2 & NS2 & _).
    unfold pj3 in PJ. apply pair_equal_spec in PJ as [_ PJ]. rewrite NS, NS2 in PJ. apply seen_inj in PJ.
    exact (v2_success3 E b ks _ _ _ _ HE i aw1 s2 C1 Hi NS2 (eq_ind_r (fun u => up_ready u 0) (ready_up s1 0 (snd (data s0)) R) PJ) (HB i Hi)).
  - split; auto. split; auto. split; auto. exact (close_calm E b ks _ _ _ _ (data s) aw' HE HP C D F).
Qed.

(** The same for shards; [cis] lists the chunks of each shard. *)
Theorem C21_v3_s3_any_schedule : forall E b ks n c d t0 (s0 : state AW) t s k aw' write_table cis,
  (forall i, e_s3 E i = true) -> NoDup ks -> (0 < w_conns (snd (data s0)))%nat ->
  disciplined false 0 c -> steps on_error (init n c d) t0 s0 -> idle s0 ->
  s3_sinks b ks (fun i => nth i (a_offsets (fst (data s0))) 0) (fst (data s0)) ->
  List.length (a_tables (fst (data s0))) = List.length ks -> List.length (a_offsets (fst (data s0))) = List.length ks ->
  (forall i, (i < List.length ks)%nat -> nth i cis [] <> [] /\
     nth i (a_offsets (fst (data s0))) 0 + fold_right Z.add 0 (map (fun ci => zlen (nth ci (a_bufs (fst (data s0))) [])) (nth i cis [])) + 8 * zlen (nth i (a_tables (fst (data s0))) []) < 2 ^ 64) ->
  prog s0 = batch (map (v3_pool_job E write_table cis) (seq 0 (List.length ks))) k ->
  miter (v3_job E write_table cis) (seq 0 (List.length ks)) (data s0) = (aw', Ok tt) ->
  steps on_error s0 (t ++ [LPass]) s -> ~ In LPass t ->
  prog s = k /\ idle s /\ same_uploads E (data s) aw' /\
  let '(x, r) := close_sinks E (data s) in let '(y, r') := close_sinks E aw' in r = r' /\ same_uploads E x y.
Proof.
  intros E b ks n c d t0 s0 t s k aw' tb cis HE HP HC Hc HR HI HS HT HO HB HPr HM HS' HN. pose proof (calm_start b ks _ (data s0) HS HC) as C0.
  destruct (flush_any_order3 E b ks (skel3 (fst (data s0))) (List.length (a_tables (fst (data s0)))) (List.length (a_offsets (fst (data s0)))) (w_conns (snd (data s0))) (v3_pool_job E tb cis) (v3_job E tb cis) n c d t0 s0 t s k aw' HE HP) as (A & B & C & D & F); auto; try lia.
  - intros i f H. apply (v3_own3 E b ks _ _ _ _ HE tb cis i f H).
  - intros i aw aw1. apply v3_job_alone.
  - intros i. exists (Act (fun _ aw => ((false, ""%string), aw)) :: v3_steps E i true (nth i cis []) ++ (if tb then [v3_step false (fun _ => v3_table E i)] else [])). split; [unfold v3_pool_job; cbn [app]; rewrite <- app_assoc; reflexivity|].
    change (cds (v3_steps E i true (nth i cis []) ++ (if tb then [v3_step false (fun _ => v3_table E i)] else [])) = 0%nat). rewrite cds_app, cds_v3_steps. destruct tb; reflexivity.
  - intros i aw1 aw2 Hi C1 PJ HQ. destruct HS as [_ HS]. destruct (HS i Hi) as (s1 & NS & _ & _ & R). pose proof C1 as (_ & _ & _ & _ & _ & _ & CN). destruct (CN i Hi) as (s2 & NS2 & N2). destruct (HB i Hi) as [H1 H2].
    unfold pj3 in PJ. apply pair_equal_spec in PJ as [PJ P3]. apply pair_equal_spec in PJ as [P1 P2]. rewrite NS, NS2 in P3. apply seen_inj in P3.
    refine (v3_success3 E b ks _ _ _ _ HE tb cis i aw1 aw2 Hi HO HT C1 _ H1 _ HQ).
    + exists s2. split; auto. split; auto. rewrite P3, P2. exact (ready_up s1 _ (snd (data s0)) R).
    + rewrite P1, P2. replace (bytes_of (skel3 (fst (data s0))) (nth i cis [])) with (fold_right Z.add 0 (map (fun ci => zlen (nth ci (a_bufs (fst (data s0))) [])) (nth i cis []))); auto. clear. induction (nth i cis []) as [|x l IH]; [reflexivity|]. cbn [map fold_right]. rewrite IH. reflexivity.
  - split; auto. split; auto. split; auto. exact (close_calm E b ks _ _ _ _ (data s) aw' HE HP C D F).
Qed.

(** *** a flush of two chunks (v2) and of two shards (v3) by two workers; the sinks are those make_data_sinks_ makes, the order of the jobs is reversed *)
Definition kx_writer (v3 : bool) : writer :=
  match make_writer v3 (mkconfig jx_dims dt_uint8 0 (Some "bkt") "out" None) with Ok a => set_bufs a [[1; 2]; [3; 4]] | _ => mkwriter (mkconfig [] 0 0 None "" None) v3 [] 0 0 0 false [] None [] [] end.
Definition kx_start (v3 : bool) : AW := fst (make_data_sinks jx_env (kx_writer v3, mkworld [] 0 2 "")).
Definition kx_seq (v3 : bool) : AW * outcome unit := if v3 then miter (v3_job jx_env true [[0%nat]; [1%nat]]) (seq 0 2) (kx_start v3) else miter (v2_job jx_env) (seq 0 2) (kx_start v3).
Definition kx_keys (v3 : bool) : list string := if v3 then ["out/data/root/0/c0/0/0"; "out/data/root/0/c0/1/0"] else ["out/0/0/0/0"; "out/0/0/1/0"].
Definition kx_sink (k : string) : option sink := Some (SS3 (mks3 "bkt" k [] 0 0 None)).
Example C21_s3_hypotheses : forall v3 : bool,
  NoDup (kx_keys v3) /\ (0 < w_conns (snd (kx_start v3)))%nat /\ disciplined false 0 (batch (jx_jobs v3) CRet) /\
  s3_sinks "bkt" (kx_keys v3) (fun _ => 0) (fst (kx_start v3)) /\ snd (kx_seq v3) = Ok tt /\
  object_of jx_env (w_trace (snd (fst (close_sinks jx_env (fst (kx_seq v3)))))) "bkt" (nth 1 (kx_keys v3) "") = Some ([3; 4] ++ (if v3 then le_bytes 8 0 ++ le_bytes 8 2 else [])) /\
  exists t s, steps on_error (init 2 (batch (jx_jobs v3) CRet) (kx_start v3)) (t ++ [LPass]) s /\ ~ In LPass t.
Proof.
  intros v3. split; [destruct v3; repeat constructor; cbn; intuition discriminate|]. split; [destruct v3; vm_compute; lia|]. split; [apply batch_disciplined; [destruct v3; repeat constructor|constructor]|]. split; [|split; [|split]].
  - assert (EQ : a_sinks (fst (kx_start v3)) = map kx_sink (kx_keys v3)) by (destruct v3; vm_compute; reflexivity). split; [rewrite EQ, map_length; reflexivity|]. intros i Hi. rewrite EQ. exists (mks3 "bkt" (nth i (kx_keys v3) "") [] 0 0 None). rewrite (nth_indep _ None (kx_sink "")) by (rewrite map_length; auto). rewrite map_nth. split; [reflexivity|]. split; auto. split; auto.
    split; [split; [discriminate|]; split; [|exact I]|].
    + cbn [s_key]. destruct v3, i as [|[|i]]; cbn in *; try discriminate; lia.
    + cbn [s_nflush s_nbuf s_buf]. unfold zlen. cbn [List.length Z.of_nat]. lia.
  - destruct v3; vm_compute; reflexivity.
  - destruct v3; vm_compute; reflexivity.
  - destruct (run_check on_error (jx_sched v3) (init 2 (batch (jx_jobs v3) CRet) (kx_start v3)) (fun t s => is_pass (last t LTau) && negb (existsb is_pass (removelast t)))) as (t & s & H1 & H2); [destruct v3; vm_compute; reflexivity|].
    apply andb_prop in H2 as [H2 H3]. destruct (last_pass t H2 H3) as (t' & -> & N). exists t', s. auto.
Qed.

Print Assumptions C21_v2_s3_any_schedule.
Print Assumptions C21_v3_s3_any_schedule.
