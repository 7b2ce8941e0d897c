(** C21, C22, C45, C46: the parallel jobs of the library on the thread pool, for all schedules. *)
Require Import ZArith List Bool String Lia Permutation.
Require Import Verif.Base Verif.Dim Verif.World Verif.Writer Verif.Stream Verif.Radix Verif.SinkProofs Verif.Pool Verif.PoolSpec Verif.PoolProofs Verif.PoolRun Verif.PoolBatch Verif.PoolAssert Verif.Jobs Verif.JobProofs Verif.PropsPool.
Import ListNotations.
Open Scope string_scope. Open Scope list_scope. Open Scope Z_scope.

(** *** C21 *)
(** Setting: [c] is any program of the client that uses latches as the library does, [n] any number of workers. In state [s0], reached in any way, the
    client is about to run the write jobs of a flush (and nothing else is going on in the pool); [s] is any state in which it has just got past the
    latch. [aw'] is what the sequential model computes. The files of the flush are open and have different names; no filesystem request fails. Then,
    whatever the interleaving: the writer, the error of the stream and the contents of every file are those of the sequential model, and the pool is
    idle again. *)
Definition same_result (E : env) (aw aw' : AW) : Prop :=
  fst aw = fst aw' /\ w_err (snd aw) = w_err (snd aw') /\
  forall p, file_of E (w_trace (snd aw)) p = file_of E (w_trace (snd aw')) p /\ dir_of E (w_trace (snd aw)) p = dir_of E (w_trace (snd aw')) p.

Theorem C21_v2_flush_any_schedule : forall E ps n c d t0 (s0 : state AW) t s k aw',
  (forall i, e_fault E i = false) -> NoDup ps ->
  disciplined false 0 c -> steps on_error (init n c d) t0 s0 -> idle s0 ->
  a_sinks (fst (data s0)) = map (fun p => Some (SFile (mkfsink p true))) ps -> a_tables (fst (data s0)) = [] -> a_offsets (fst (data s0)) = [] ->
  prog s0 = batch (map (v2_pool_job E) (seq 0 (List.length ps))) k ->
  miter (v2_job E) (seq 0 (List.length ps)) (data s0) = (aw', Ok tt) ->
  steps on_error s0 (t ++ [LPass]) s -> ~ In LPass t ->
  prog s = k /\ idle s /\ same_result E (data s) aw'.
Proof.
  intros E ps n c d t0 s0 t s k aw' HE HP Hc HR HI HS HT HO HPr HM HS' HN.
  destruct (flush_any_order E ps HP (v2_pool_job E) (v2_job E)) with (n := n) (c := c) (d := d) (t0 := t0) (s0 := s0) (t := t) (s := s) (k := k) (aw' := aw') as (A & B & C1 & C2 & _ & C3); auto.
  - intros sk nt no i f H1 H2 H3. eapply v2_own; eauto.
  - intros i aw aw1. apply v2_job_alone.
  - intros i. exists (firstn 1 (v2_pool_job E i)). split; reflexivity.
  - rewrite HT. cbn. lia.
  - rewrite HO. cbn. lia.
  - intros i (a & w) aw2 Hi ST _. unfold v2_pool_job. cbn [alone]. rewrite (v2_body_open E ps (skel (fst (data s0))) _ _ HE HS i a w ST Hi). reflexivity.
  - split; auto. split; auto. split; auto.
Qed.
Theorem C21_v3_flush_any_schedule : forall E ps n c d t0 (s0 : state AW) t s k aw' write_table cis,
  (forall i, e_fault E i = false) -> NoDup ps ->
  disciplined false 0 c -> steps on_error (init n c d) t0 s0 -> idle s0 ->
  a_sinks (fst (data s0)) = map (fun p => Some (SFile (mkfsink p true))) ps ->
  List.length (a_tables (fst (data s0))) = List.length ps -> List.length (a_offsets (fst (data s0))) = List.length ps ->
  (forall i, (i < List.length ps)%nat -> nth i cis [] <> []) ->
  prog s0 = batch (map (v3_pool_job E write_table cis) (seq 0 (List.length ps))) k ->
  miter (v3_job E write_table cis) (seq 0 (List.length ps)) (data s0) = (aw', Ok tt) ->
  steps on_error s0 (t ++ [LPass]) s -> ~ In LPass t ->
  prog s = k /\ idle s /\ same_result E (data s) aw'.
Proof.
  intros E ps n c d t0 s0 t s k aw' tb cis HE HP Hc HR HI HS HT HO HN' HPr HM HS' HN.
  destruct (flush_any_order E ps HP (v3_pool_job E tb cis) (v3_job E tb cis)) with (n := n) (c := c) (d := d) (t0 := t0) (s0 := s0) (t := t) (s := s) (k := k) (aw' := aw') as (A & B & C1 & C2 & _ & C3); auto; try lia.
  - intros sk nt no i f H1 H2 H3. eapply v3_own; eauto.
  - intros i aw aw1. apply v3_job_alone.
  - intros i. exists (Act (fun _ aw => ((false, ""%string), aw)) :: v3_steps E i true (nth i cis []) ++ (if tb then [v3_step false (fun _ => v3_table E i)] else [])). split; [unfold v3_pool_job; cbn [app]; rewrite <- app_assoc; reflexivity|].
    change (cds (v3_steps E i true (nth i cis []) ++ (if tb then [v3_step false (fun _ => v3_table E i)] else [])) = 0%nat). rewrite cds_app, cds_v3_steps. destruct tb; reflexivity.
  - intros i aw1 aw2 Hi ST HQ. exact (v3_success E (skel (fst (data s0))) _ _ ps tb cis i aw1 aw2 HE HS Hi (HN' i Hi) ST HQ).
  - split; auto. split; auto. split; auto.
Qed.
(** The same for compression, which touches no file: the state is exactly the sequential one. *)
Theorem C21_compress_any_schedule : forall E pr bpp n c d t0 (s0 : state AW) t s k m,
  m = List.length (a_bufs (fst (data s0))) ->
  (forall i, (i < m)%nat -> e_compress E pr bpp (nth i (a_bufs (fst (data s0))) []) <> None) ->
  c_comp (a_cfg (fst (data s0))) = Some pr -> bytes_of_type (c_dtype (a_cfg (fst (data s0)))) = Ok bpp ->
  disciplined false 0 c -> steps on_error (init n c d) t0 s0 -> idle s0 ->
  prog s0 = batch (map (compress_pool_job E pr bpp) (seq 0 m)) k ->
  steps on_error s0 (t ++ [LPass]) s -> ~ In LPass t ->
  prog s = k /\ idle s /\ compress_buffers E (data s0) = (data s, Ok tt).
Proof.
  intros E pr bpp n c d t0 s0 t s k m Hm HC H1 H2 Hc HR HI HPr HS HN. destruct (compress_any_order E pr bpp n c d t0 s0 t s k m Hm HC Hc HR HPr HI HS HN) as (A & B & C). split; auto. split; auto.
  rewrite C. unfold compress_buffers. rewrite bind_run. cbn [getA]. rewrite H1, bind_run. unfold liftM. rewrite H2. rewrite <- Hm. apply compress_seq. intros i Hi. apply HC. lia.
Qed.

(** *** a flush of two chunks (v2) and of two shards (v3) by two workers; the files are those make_data_sinks_ opens *)
Definition jx_env : env := {|
  e_file0 := fun _ => None; e_dir0 := fun _ => false; e_obj0 := fun _ _ => None; e_fault := fun _ => false; e_s3 := fun _ => true; e_conns := 2%nat;
  e_compress := fun _ _ d => Some (7 :: d); e_writable := fun _ => true; e_parse := fun _ => None; e_stat := fun _ _ => true |}.
Definition jx_dims : list dim := [mkdim "t" ty_time 0 1 1; mkdim "y" ty_space 2 1 1; mkdim "x" ty_space 2 2 1].
Definition jx_writer (v3 : bool) : writer :=
  match make_writer v3 (mkconfig jx_dims dt_uint8 0 None "out" (Some (mkblosc "lz4" 1 1))) with Ok a => set_bufs a [[1; 2]; [3; 4]] | _ => mkwriter (mkconfig [] 0 0 None "" None) v3 [] 0 0 0 false [] None [] [] end.
Definition jx_start (v3 : bool) : AW := fst (make_data_sinks jx_env (jx_writer v3, mkworld [] 0 0 "")).
Definition jx_jobs (v3 : bool) : list (job AW) := if v3 then map (v3_pool_job jx_env true [[0%nat]; [1%nat]]) (seq 0 2) else map (v2_pool_job jx_env) (seq 0 2).
Definition jx_seq (v3 : bool) : AW * outcome unit := if v3 then miter (v3_job jx_env true [[0%nat]; [1%nat]]) (seq 0 2) (jx_start v3) else miter (v2_job jx_env) (seq 0 2) (jx_start v3).
Definition jx_paths (v3 : bool) : list string := if v3 then ["out/data/root/0/c0/0/0"; "out/data/root/0/c0/1/0"] else ["out/0/0/0/0"; "out/0/0/1/0"].
(** both workers take a job, the second one goes first *)
Definition jx_sched (v3 : bool) : list choice :=
  [W 0; W 0; W 1; W 1; C 0; C 0; C 0; C 1; C 1; W 0; W 0; W 1; W 1] ++ (if v3 then [W 1; W 1; W 0; W 1; W 1; W 0; W 0; W 0] else [W 1; W 0; W 0; W 1]) ++ [C 0].
Definition is_pass (x : label AW) : bool := match x with LPass => true | _ => false end.
Lemma last_pass (t : list (label AW)) : is_pass (last t LTau) = true -> negb (existsb is_pass (removelast t)) = true -> exists t', t = t' ++ [LPass] /\ ~ In LPass t'.
Proof.
  intros H1 H2. destruct t as [|x t] using rev_ind; [discriminate|]. rewrite last_last in H1. rewrite removelast_last in H2. destruct x; try discriminate. exists t. split; auto. intros X.
  assert (Y : existsb is_pass t = true) by (apply existsb_exists; exists LPass; auto). rewrite Y in H2. discriminate.
Qed.
Fixpoint zs_eqb (a b : list Z) : bool := match a, b with [], [] => true | x :: a, y :: b => (x =? y) && zs_eqb a b | _, _ => false end.
Definition bytes_eqb (a b : option (list Z)) : bool := match a, b with Some a, Some b => zs_eqb a b | _, _ => false end.
Lemma bytes_eqb_eq a b : bytes_eqb a b = true -> a = b.
Proof.
  destruct a as [a|], b as [b|]; try discriminate. cbn. intros H. f_equal. revert b H. induction a as [|x a IH]; intros [|y b] H; try discriminate; auto. cbn in H. apply andb_prop in H as [H1 H2]. apply Z.eqb_eq in H1. f_equal; auto.
Qed.
Definition first_written (tr : list event) : string := hd "" (flat_map (fun e => match e with EWrite p _ _ => [p] | _ => [] end) tr).
Example C21_hypotheses : forall v3 : bool,
  NoDup (jx_paths v3) /\ disciplined false 0 (batch (jx_jobs v3) CRet) /\
  a_sinks (fst (jx_start v3)) = map (fun p => Some (SFile (mkfsink p true))) (jx_paths v3) /\
  snd (jx_seq v3) = Ok tt /\
  exists t s, steps on_error (init 2 (batch (jx_jobs v3) CRet) (jx_start v3)) (t ++ [LPass]) s /\ ~ In LPass t /\
    file_of jx_env (w_trace (snd (data s))) (nth 1 (jx_paths v3) "") = Some ([3; 4] ++ (if v3 then le_bytes 8 0 ++ le_bytes 8 2 else [])) /\
    w_trace (snd (data s)) <> w_trace (snd (fst (jx_seq v3))).
Proof.
  intros v3. split; [destruct v3; repeat constructor; cbn; intuition discriminate|]. split; [apply batch_disciplined; [destruct v3; repeat constructor|constructor]|]. split; [destruct v3; vm_compute; reflexivity|]. split; [destruct v3; vm_compute; reflexivity|].
  destruct (run_check on_error (jx_sched v3) (init 2 (batch (jx_jobs v3) CRet) (jx_start v3)) (fun t s =>
    is_pass (last t LTau) && negb (existsb is_pass (removelast t)) && bytes_eqb (file_of jx_env (w_trace (snd (data s))) (nth 1 (jx_paths v3) "")) (Some ([3; 4] ++ (if v3 then le_bytes 8 0 ++ le_bytes 8 2 else [])))
    && negb (String.eqb (first_written (w_trace (snd (data s)))) (first_written (w_trace (snd (fst (jx_seq v3)))))))) as (t & s & H1 & H2); [destruct v3; vm_compute; reflexivity|].
  apply andb_prop in H2 as [H2 H5]. apply andb_prop in H2 as [H2 H4]. apply andb_prop in H2 as [H2 H3]. destruct (last_pass t H2 H3) as (t' & -> & N). exists t', s. split; auto. split; auto. split; [apply bytes_eqb_eq; auto|]. intros X. rewrite X, String.eqb_refl in H5. discriminate.
Qed.

(** *** C46 *)
(** Directories only appear: make_dirs_ jobs never remove one. *)
Lemma dir_of_mkdir E tr p q : dir_of E tr q = true -> dir_of E (tr ++ [EMkdir p]) q = true.
Proof. unfold dir_of. rewrite fold_left_app. cbn [fold_left dir_step]. intros H. apply andb_prop in H as [-> ->]. reflexivity. Qed.
Lemma under_refl p : under p p = true.
Proof. unfold under. rewrite String.eqb_refl. reflexivity. Qed.
Lemma dir_body_run E p all w : exists w' r, dir_body E p all w = (w', r) /\
  (w_trace w' = w_trace w \/ w_trace w' = w_trace w ++ [EMkdir p]) /\ (fst (local_of r) = true -> all = true -> dir_of E (w_trace w') p = true).
Proof.
  unfold dir_body. destruct (String.eqb_spec p ""); [eexists _, _; split; [reflexivity|]; split; [auto|discriminate]|].
  unfold bind at 1, in_task at 1, fs_is_directory. destruct (e_stat E (w_tick w) p) eqn:ST; [|eexists _, _; split; [reflexivity|]; split; [auto|discriminate]].
  destruct (dir_of E (w_trace w) p) eqn:DP; [eexists _, _; split; [reflexivity|]; auto|].
  unfold bind at 1, in_task at 1, fs_exists. rewrite ST. match goal with |- context [if ?b then _ else _] => destruct b end; [eexists _, _; split; [reflexivity|]; split; [auto|discriminate]|].
  destruct all; [|eexists _, _; split; [reflexivity|]; split; [auto|discriminate]].
  unfold bind at 1, fs_create_directories. unfold bind at 1, getM. cbv beta iota. rewrite DP. cbn [orb]. destruct (String.eqb_spec p ""); [contradiction|]. unfold bind, next_tick. destruct (e_fault E (w_tick w)); cbn.
  - eexists _, _. split; [reflexivity|]. split; [auto|discriminate].
  - eexists _, _. split; [reflexivity|]. split; [auto|]. intros _ _. cbn. unfold dir_of. rewrite fold_left_app. cbn [fold_left dir_step]. rewrite under_refl, orb_true_r. destruct (String.eqb_spec p ""); [contradiction|reflexivity].
Qed.

Lemma file_sink_returns E p w : exists w' f, file_sink E p w = (w', Ok f) /\ w_err w' = w_err w.
Proof.
  unfold file_sink, bind, getM, next_tick. cbv beta iota. match goal with |- context [if ?b then _ else _] => destruct b end; cbn; eexists _, _; split; reflexivity.
Qed.
Section Dirs.
Variables (E : env).
(** programs that only make directories and read the flag *)
Inductive dirs_client : client mk -> Prop :=
| dc_latch n k : dirs_client k -> dirs_client (CLatch n k)
| dc_push p k : (forall b, dirs_client (k b)) -> dirs_client (CPush (dir_pool_job E p) k)
| dc_wait k : dirs_client k -> dirs_client (CWait k)
| dc_read k : dirs_client k -> dirs_client (read_all k)
| dc_ret : dirs_client CRet.
Definition made (p : string) (d : mk) : Prop := m_all d = true -> dir_of E (w_trace (m_world d)) p = true.
Definition dir_ai (j r : job mk) (x : local) (d : mk) : Prop := forall p, j = dir_pool_job E p ->
  r = j \/ (r = skipn 1 j \/ r = skipn 2 j) /\ (fst x = true -> made p d) \/ r = [] /\ made p d.
Definition dir_ae (j : job mk) (d : mk) : Prop := forall p, j = dir_pool_job E p -> made p d.
Lemma dir_stable d d' : (m_all d' = true -> m_all d = true) -> (forall q, dir_of E (w_trace (m_world d)) q = true -> dir_of E (w_trace (m_world d')) q = true) ->
  stable dir_ai (fun j _ => dir_ae j) dir_ae d d'.
Proof.
  intros H1 H2 j. assert (M : forall p, made p d -> made p d') by (unfold made; auto). split; [|split; unfold dir_ae; auto].
  intros r x H p Hp. destruct (H p Hp) as [X|[[X Y]|[X Y]]].
  - left. auto.
  - right. left. split; auto.
  - right. right. split; auto.
Qed.
Lemma dirs_ended n c d t s : dirs_client c -> steps mk_error (init n c d) t s -> forall id p, In (LAccept id (dir_pool_job E p)) t -> In id (ends t) -> made p (data s).
Proof.
  intros Hc H id p HA HE. refine (ended mk_error (fun _ => True) dir_ai (fun j _ => dir_ae j) dir_ae (fun j => exists p, j = dir_pool_job E p) dirs_client _ _ _ _ _ _ _ _ _ _ _ _ n c d t s Hc I H id _ HA HE p eq_refl).
  - intros f k d0 HD _. inversion HD; subst. split; [|split; auto]; auto. apply dir_stable; auto.
  - intros j k b HD. inversion HD; subst. split; eauto.
  - intros m k HD. inversion HD; auto.
  - intros k HD. inversion HD; auto.
  - intros k HD. inversion HD.
  - intros k HD. inversion HD.
  - intros j d0 _ _ p0 Hp. auto.
  - intros j f r x d0 x' d' [p1 HG] _ HI HF. split; auto. pose proof (HI p1 HG) as HI1. subst j. unfold dir_pool_job in HI1 |- *. cbn [skipn] in HI1.
    destruct HI1 as [X|[[[X|X] Y]|[X _]]]; try discriminate.
    + injection X as -> ->. destruct (dir_body_run E p1 (m_all d0) (m_world d0)) as (w' & l & R & T & DD). rewrite R in HF. injection HF as <- <-. split.
      * intros p0 Hp. right. left. split; [left; reflexivity|]. intros FX. unfold made. cbn [m_all m_world]. intros MA. unfold dir_pool_job in Hp. injection Hp as Hp. 
        pose proof (f_equal (fun f => f l0 d0) Hp) as Q. cbv beta in Q. rewrite R in Q.
        destruct (dir_body_run E p0 (m_all d0) (m_world d0)) as (w2 & l2 & R2 & T2 & DD2). rewrite R2 in Q. injection Q as Q1 Q2. rewrite Q1 in FX. rewrite Q2. auto.
      * apply dir_stable; cbn; auto. intros q Hq. destruct T as [->| ->]; [auto|apply dir_of_mkdir; auto].
    + injection X as -> ->. injection HF as <- <-. split.
      * intros p0 Hp. destruct (HI p0 Hp) as [X|[[[X|X] Z]|[X _]]]; try discriminate. right. right. split; auto. unfold made in *. cbn [m_all m_world]. intros MA. apply andb_prop in MA as [M1 M2]. auto.
      * apply dir_stable; cbn; auto. intros M. apply andb_prop in M as [M _]. auto.
  - intros j r x d0 HI p0 Hp. pose proof (HI p0 Hp) as X. subst j. unfold dir_pool_job in *. cbn [skipn] in *. destruct X as [X|[[[X|X] Y]|[X _]]]; try discriminate. injection X as ->. right. left. auto.
  - intros j m d0 _ HI p0 Hp. destruct (HI p0 Hp) as [X|[[[X|X] Y]|[_ Y]]]; auto; subst j; discriminate.
  - intros j m d0 _ HI p0 Hp. destruct (HI p0 Hp) as [X|[[[X|X] Y]|[_ Y]]]; auto; subst j; discriminate.
  - intros j m d0 _ HI. split; auto. split; [exact HI|]. apply dir_stable; cbn; auto.
Qed.
End Dirs.

(** the jobs of a batch have all been accepted when the client has got past it *)
Lemma batch_accepted {D} (h : string -> D -> D) n (js : list (job D)) k d t s : steps h (init n (batch js k) d) t s ->
  In LPass t -> forall j, In j js -> exists id, In (LAccept id j) t.
Proof.
  intros H. cut ((~ In LPass t /\ (prog s = batch js k \/ (exists l r, js = l ++ r /\ prog s = pushes r (CWait k) /\ forall j, In j l -> exists id, In (LAccept id j) t) \/ prog s = CRet)) \/
  (forall j, In j js -> exists id, In (LAccept id j) t)); [tauto|].
  remember (init n (batch js k) d) as s0 eqn:HE. induction H as [s|s t s1 x s2 H IH HS]; [left; subst s; split; auto|]. specialize (IH HE).
  assert (W : forall j (t : list (label D)), (exists id, In (LAccept id j) t) -> exists id, In (LAccept id j) (t ++ [x])) by (intros j t' (id & Hid); exists id; apply in_app_iff; auto).
  assert (PW : (prog s2 = prog s1 /\ x <> LPass) \/ client_step s1 x s2) by (destruct HS as [HS|[HS|HS]]; auto; destruct HS; left; split; auto; discriminate).
  assert (NP : x <> LPass -> ~ In LPass t -> ~ In LPass (t ++ [x])) by (intros X Y Z; apply in_app_iff in Z as [Z|[Z|[]]]; auto).
  destruct IH as [[N [P|[(l & r & J & P & Q)|P]]]|Q].
  - destruct PW as [[PW X]|PW]; [left; split; [auto|left; congruence]|]. destruct PW; cbn in P; try discriminate.
    + injection P as -> ->. left. split; [apply NP; auto; discriminate|]. right. left. exists [], js. cbn. split; auto. split; auto. intros j [].
    + rewrite P in *. discriminate.
  - destruct PW as [[PW X]|PW].
    + left. split; [auto|]. right. left. exists l, r. rewrite PW. split; [exact J|]. split; [exact P|]. auto.
    + destruct r as [|j r]; cbn [pushes] in P; destruct PW; cbn in P; try discriminate.
      * right. rewrite J, app_nil_r. auto.
      * rewrite P in *. discriminate.
      * left. split; [apply NP; auto; discriminate|]. right. left. exists l, (j :: r). cbn. split; [exact J|]. split; [exact P|]. auto.
      * injection P as -> ->. left. split; [apply NP; auto; discriminate|]. right. left. exists (l ++ [j]), r. cbn. split; [rewrite J, <- app_assoc; reflexivity|]. split; auto. intros j' Hj. apply in_app_iff in Hj as [Hj|[<-|[]]]; auto. exists n0. apply in_app_iff. right. left. reflexivity.
      * injection P as -> ->. left. split; [apply NP; auto; discriminate|]. right. right. reflexivity.
  - left. destruct PW as [[PW X]|PW]; [split; [auto|]; right; right; congruence|]. destruct PW; cbn in P; try discriminate; subst; discriminate.
  - right. auto.
Qed.

(** make_dirs_, any interleaving, any fault pattern: let the client be past the latch. If every job it pushed has ended and the flag all_successful says
    success, then every directory exists. (Partial: the jobs count the latch down before they clear the flag, so the client can read the flag before they
    have ended; see [C46_make_dirs_refuted].) *)
Theorem C46_make_dirs_partial : forall E ps n d t s,
  steps mk_error (init n (make_dirs_prog E ps CRet) d) t s -> In LPass t -> incl (accepts t) (ends t) ->
  m_all (data s) = true -> forall p, In p ps -> dir_of E (w_trace (m_world (data s))) p = true.
Proof.
  intros E ps n d t s H HP HI HA p Hp. unfold make_dirs_prog, read_all in H.
  destruct (batch_accepted _ _ _ _ _ _ _ H HP (dir_pool_job E p)) as (id & Hid); [apply in_map; auto|].
  refine (dirs_ended E n _ d t s _ H id p Hid _ HA).
  - apply dc_latch. clear. induction ps as [|q ps IH]; cbn; [repeat constructor|]. constructor. intros []; [exact IH|constructor].
  - apply HI. unfold accepts. apply in_flat_map. eexists. split; [exact Hid|left; reflexivity].
Qed.

(** No false alarm: if no filesystem request fails, the status of every directory can be asked, and no file has the name of a directory, make_dirs_ says success on every schedule, and no error is
    recorded. *)
Theorem C46_make_dirs_no_false_alarm : forall E ps n d t s,
  (forall i, e_fault E i = false) -> (forall i p, In p ps -> e_stat E i p = true) -> (forall p, In p ps -> p <> "" /\ file_of E (w_trace (m_world d)) p = None) -> m_all d = true ->
  steps mk_error (init n (make_dirs_prog E ps CRet) d) t s ->
  m_all (data s) = true /\ w_err (m_world (data s)) = w_err (m_world d).
Proof.
  intros E ps n d t s HF HQ HN HA H.
  set (G := fun x : mk => m_all x = true /\ w_err (m_world x) = w_err (m_world d) /\ forall p, In p ps -> file_of E (w_trace (m_world x)) p = None).
  set (AI := fun (j r : job mk) (x : local) (_ : mk) => fst x = true /\ exists p, In p ps /\ (r = dir_pool_job E p \/ r = skipn 1 (dir_pool_job E p) \/ r = skipn 2 (dir_pool_job E p) \/ r = [])).
  set (good := fun j : job mk => exists p, In p ps /\ j = dir_pool_job E p).
  set (okc := fun c : client mk => c = CRet \/ c = read_all CRet \/ (exists js, (forall j, In j js -> good j) /\ (c = pushes js (CWait (read_all CRet)) \/ c = batch js (read_all CRet)))).
  assert (A : ainv G AI (fun _ _ _ => False) (fun _ _ => True) good okc t s).
  { refine (ainv_steps mk_error G AI (fun _ _ _ => False) (fun _ _ => True) good okc _ _ _ _ _ _ _ _ _ _ _ _ n _ d t s _ _ H).
    - intros f k x [X|[X|(js & J & [X|X])]] GD; try discriminate; [|destruct js; discriminate]. injection X as -> ->. split; [left; reflexivity|]. split; [destruct GD as (X & Y & Z); split; auto|]. intros j. auto.
    - intros j k b [X|[X|(js & J & [X|X])]]; try discriminate. destruct js as [|j0 js]; [discriminate|]. injection X as -> ->. split; [apply J; left; reflexivity|]. destruct b; [|left; reflexivity]. right. right. exists js. split; [intros; apply J; right; auto|]. auto.
    - intros m k [X|[X|(js & J & [X|X])]]; try discriminate; [destruct js; discriminate|]. injection X as -> ->. right. right. exists js. auto.
    - intros k [X|[X|(js & J & [X|X])]]; try discriminate. destruct js; [|discriminate]. injection X as ->. right. left. reflexivity.
    - intros k [X|[X|(js & J & [X|X])]]; try discriminate. destruct js; discriminate.
    - intros k [X|[X|(js & J & [X|X])]]; try discriminate. destruct js; discriminate.
    - intros j x (p & Hp & ->) _. split; auto. exists p. auto.
    - intros j f r x y x' y' _ (G1 & G2 & G3) (I1 & p & Hp & I2) FX. unfold dir_pool_job in I2. cbn [skipn] in I2. destruct I2 as [X|[X|[X|X]]]; try discriminate; injection X as -> ->.
      + revert FX. unfold dir_body. destruct (String.eqb_spec p "") as [E0|_]; [exfalso; apply (proj1 (HN p Hp)); auto|]. unfold in_task, fs_is_directory, fs_exists, bind. rewrite (HQ _ p Hp). destruct (dir_of E (w_trace (m_world y)) p) eqn:DP.
        * intros X. injection X as <- <-. split; [split; auto|]. split; [|intros j'; auto]. split; auto. exists p. auto.
        * cbv beta iota. rewrite (HQ _ p Hp), DP, (G3 p Hp), andb_false_r. cbn [orb]. rewrite G1. unfold fs_create_directories, getM, bind. rewrite DP. destruct (String.eqb_spec p "") as [E0|_]; [exfalso; apply (proj1 (HN p Hp)); auto|]. cbv beta iota delta [orb next_tick]. rewrite HF. cbn. intros X. injection X as <- <-.
          split; [|split; [split; auto; exists p; auto|intros j'; auto]]. split; auto. split; auto. cbn. intros q Hq. unfold file_of. rewrite fold_left_app. cbn. apply (G3 q Hq).
      + injection FX as <- <-. split; [|split; [split; auto; exists p; auto|intros j'; auto]]. split; [|split; auto]. cbn. rewrite G1, I1. reflexivity.
    - intros j r x y (I1 & p & Hp & I2). split; auto. exists p. split; auto. unfold dir_pool_job in I2 |- *. cbn [skipn] in I2 |- *. destruct I2 as [X|[X|[X|X]]]; try discriminate. injection X as ->. auto.
    - auto.
    - intros j m x _ (X & _). discriminate.
    - intros j m x _ [].
    - right. right. exists (map (dir_pool_job E) ps). split; [|right; reflexivity]. intros j Hj. apply in_map_iff in Hj as (p & <- & Hp). exists p. auto.
    - split; auto. split; auto. intros p Hp. apply (HN p Hp). }
  destruct (v_data _ _ _ _ _ _ _ _ A) as (X & Y & _). auto.
Qed.

(** Refuted in general: with two workers (of which one does nothing here) the job fails to make the directory and counts the latch down; the client
    reads the flag, and only then the job clears it. *)
Definition bad_env : env := {|
  e_file0 := fun _ => None; e_dir0 := fun _ => false; e_obj0 := fun _ _ => None; e_fault := fun _ => true; e_s3 := fun _ => true; e_conns := 2%nat;
  e_compress := fun _ _ d => Some d; e_writable := fun _ => true; e_parse := fun _ => None; e_stat := fun _ _ => true |}.
Definition mk0 : mk := mkmk (mkworld [] 0 0 "") true [] None.
Theorem C46_make_dirs_refuted : ~ forall E ps n t s, steps mk_error (init n (make_dirs_prog E ps CRet) mk0) t s ->
  m_out (data s) = Some true -> forall p, In p ps -> dir_of E (w_trace (m_world (data s))) p = true.
Proof.
  intros H. destruct (run_check mk_error [W 0; W 0; C 0; C 0; C 0; W 0; W 0; W 0; W 0; C 0; C 0] (init 1 (make_dirs_prog bad_env ["out"] CRet) mk0)
    (fun _ s => match m_out (data s) with Some true => negb (dir_of bad_env (w_trace (m_world (data s))) "out") | _ => false end)) as (t & s & R & O); [vm_compute; reflexivity|].
  specialize (H bad_env ["out"] 1%nat t s R). destruct (m_out (data s)) as [[]|]; try discriminate. rewrite (H eq_refl "out" (or_introl eq_refl)) in O. discriminate.
Qed.
(** The hypotheses of the two positive theorems can be met: a fair schedule of two directories by two workers. *)
Lemma zs_eqb_eq a b : zs_eqb a b = true -> a = b.
Proof. intros H. assert (X : Some a = Some b) by (apply bytes_eqb_eq; exact H). congruence. Qed.
Example C46_hypotheses : exists t s, steps mk_error (init 2 (make_dirs_prog jx_env ["out/a"; "out/b"] CRet) mk0) t s /\ In LPass t /\ incl (accepts t) (ends t) /\ m_all (data s) = true.
Proof.
  destruct (run_check mk_error [C 0; C 0; C 0; C 1; C 1; W 0; W 0; W 1; W 1; W 1; W 0; W 0; W 0; W 1; W 1; W 1; W 0; C 0] (init 2 (make_dirs_prog jx_env ["out/a"; "out/b"] CRet) mk0)
    (fun t s => zs_eqb (map Z.of_nat (accepts t)) [0; 1] && zs_eqb (map Z.of_nat (ends t)) [1; 0] && m_all (data s) && existsb (fun x => match x with LPass => true | _ => false end) t)) as (t & s & R & O); [vm_compute; reflexivity|].
  apply andb_prop in O as [O O4]. apply andb_prop in O as [O O3]. apply andb_prop in O as [O1 O2]. apply zs_eqb_eq in O1, O2. exists t, s. split; auto. split; [apply existsb_exists in O4 as ([] & O4 & O5); try discriminate; auto|]. split; auto.
  intros id H. apply (in_map Z.of_nat) in H. rewrite O1 in H. assert (X : In (Z.of_nat id) (map Z.of_nat (ends t))) by (rewrite O2; cbn in *; tauto). apply in_map_iff in X as (y & Y & X). apply Nat2Z.inj in Y. subst. auto.
Qed.

(** make_files_ never reports anything: whatever requests fail, on every schedule, all_successful stays true and no error is recorded, because the
    constructor of FileSink does not look whether the file could be opened. *)
Theorem C46_make_files_never_reports : forall E ps n d t s, m_all d = true -> steps mk_error (init n (make_files_prog E ps CRet) d) t s ->
  m_all (data s) = true /\ w_err (m_world (data s)) = w_err (m_world d) /\ (m_out d = None -> m_out (data s) <> Some false).
Proof.
  intros E ps n d t s HA H.
  set (G := fun x : mk => m_all x = true /\ w_err (m_world x) = w_err (m_world d) /\ (m_out d = None -> m_out x <> Some false)).
  set (AI := fun (j r : job mk) (x : local) (_ : mk) => fst x = true /\ exists i p, r = file_pool_job E i p \/ r = skipn 1 (file_pool_job E i p) \/ r = skipn 2 (file_pool_job E i p) \/ r = []).
  set (good := fun j : job mk => exists i p, j = file_pool_job E i p).
  set (okc := fun c : client mk => c = CRet \/ c = read_all CRet \/ (exists js, (forall j, In j js -> good j) /\ (c = pushes js (CWait (read_all CRet)) \/ c = batch js (read_all CRet)))).
  assert (A : ainv G AI (fun _ _ _ => False) (fun _ _ => True) good okc t s).
  { refine (ainv_steps mk_error G AI (fun _ _ _ => False) (fun _ _ => True) good okc _ _ _ _ _ _ _ _ _ _ _ _ n _ d t s _ _ H).
    - intros f k x [X|[X|(js & J & [X|X])]] GD; try discriminate; [|destruct js; discriminate]. injection X as -> ->. split; [left; reflexivity|]. split; [destruct GD as (X & Y & Z); split; auto; split; auto; cbn; rewrite X; discriminate|]. intros j. auto.
    - intros j k b [X|[X|(js & J & [X|X])]]; try discriminate. destruct js as [|j0 js]; [discriminate|]. injection X as -> ->. split; [apply J; left; reflexivity|]. destruct b; [|left; reflexivity]. right. right. exists js. split; [intros; apply J; right; auto|]. auto.
    - intros m k [X|[X|(js & J & [X|X])]]; try discriminate; [destruct js; discriminate|]. injection X as -> ->. right. right. exists js. auto.
    - intros k [X|[X|(js & J & [X|X])]]; try discriminate. destruct js; [|discriminate]. injection X as ->. right. left. reflexivity.
    - intros k [X|[X|(js & J & [X|X])]]; try discriminate. destruct js; discriminate.
    - intros k [X|[X|(js & J & [X|X])]]; try discriminate. destruct js; discriminate.
    - intros j x (i & p & ->) _. split; auto. exists i, p. auto.
    - intros j f r x y x' y' _ (G1 & G2 & G3) (I1 & i & p & I2) FX. unfold file_pool_job in I2. cbn [skipn] in I2. destruct I2 as [X|[X|[X|X]]]; try discriminate; injection X as -> ->.
      + rewrite G1 in FX. destruct (file_sink_returns E p (m_world y)) as (w' & f & R & EE). rewrite R in FX. injection FX as <- <-. split; [split; cbn; [auto|]; split; [congruence|auto]|]. split; [|intros j'; auto]. split; auto. exists i, p. auto.
      + injection FX as <- <-. split; [split; cbn; [rewrite G1, I1; reflexivity|auto]|]. split; [split; auto; exists i, p; auto|intros j'; auto].
    - intros j r x y (I1 & i & p & I2). split; auto. exists i, p. unfold file_pool_job in I2 |- *. cbn [skipn] in I2 |- *. destruct I2 as [X|[X|[X|X]]]; try discriminate. injection X as ->. auto.
    - auto.
    - intros j m x _ (X & _). discriminate.
    - intros j m x _ [].
    - right. right. eexists. split; [|right; reflexivity]. intros j Hj. apply in_map_iff in Hj as ([i p] & <- & Hp). exists i, p. auto.
    - split; auto. split; auto. intros ->. discriminate. }
  destruct (v_data _ _ _ _ _ _ _ _ A) as (X & Y & Z). auto.
Qed.
(** so the property fails for files on every schedule: nothing could be opened, the caller is told true *)
Theorem C46_make_files_refuted : ~ forall E ps n t s, steps mk_error (init n (make_files_prog E ps CRet) mk0) t s ->
  m_out (data s) = Some true -> forall p, In p ps -> file_of E (w_trace (m_world (data s))) p <> None.
Proof.
  intros H. destruct (run_check mk_error [W 0; W 0; C 0; C 0; C 0; W 0; W 0; W 0; W 0; W 0; W 0; W 0; W 0; C 0; C 0] (init 1 (make_files_prog bad_env ["f"] CRet) mk0)
    (fun _ s => match m_out (data s), file_of bad_env (w_trace (m_world (data s))) "f" with Some true, None => true | _, _ => false end)) as (t & s & R & O); [vm_compute; reflexivity|].
  specialize (H bad_env ["f"] 1%nat t s R). destruct (m_out (data s)) as [[]|]; try discriminate. specialize (H eq_refl "f" (or_introl eq_refl)). destruct (file_of bad_env (w_trace (m_world (data s))) "f"); [discriminate|]. apply H. reflexivity.
Qed.

Print Assumptions C21_v2_flush_any_schedule.
Print Assumptions C21_v3_flush_any_schedule.
Print Assumptions C21_compress_any_schedule.
Print Assumptions C46_make_dirs_partial.
Print Assumptions C46_make_dirs_no_false_alarm.
Print Assumptions C46_make_dirs_refuted.
Print Assumptions C46_make_files_never_reports.
Print Assumptions C46_make_files_refuted.
