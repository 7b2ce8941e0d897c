(** C21, C46 for the creation of files (make_files_): which sinks the caller has when it is past the latch, for all schedules. *)
Require Import ZArith List Bool String Lia.
Require Import Verif.Base Verif.Dim Verif.World Verif.Writer Verif.Radix Verif.SinkProofs Verif.Pool Verif.PoolSpec Verif.PoolProofs Verif.PoolRun Verif.PoolAssert Verif.Jobs Verif.PropsPool Verif.PropsJobs.
Import ListNotations.
Open Scope string_scope. Open Scope list_scope. Open Scope Z_scope.

Lemma file_sink_what E p w : exists w' o, file_sink E p w = (w', Ok (mkfsink p o)) /\ w_err w' = w_err w /\
  (w_trace w' = w_trace w ++ [EOpen p] /\ o = true \/ w_trace w' = w_trace w /\ o = false /\ ~ ((forall k, e_fault E k = false) /\ dir_of E (w_trace w) (parent_path p) = true)).
Proof.
  unfold file_sink, bind, getM, next_tick, parent_ok. cbv beta iota.
  destruct (String.eqb (parent_path p) "" || dir_of E (w_trace w) (parent_path p)) eqn:A, (e_fault E (w_tick w)) eqn:F; cbn; eexists _, _; split; try reflexivity; split; try reflexivity; auto; right; split; auto; split; auto; intros [X Y].
  - rewrite X in F. discriminate.
  - rewrite X in F. discriminate.
  - rewrite Y, orb_true_r in A. discriminate.
Qed.

Section Files.
Variables (E : env) (ps : list string) (d0 : mk).
Definition fair0 : Prop := (forall k, e_fault E k = false) /\ (forall p, In p ps -> dir_of E (w_trace (m_world d0)) (parent_path p) = true).
Definition has (i : nat) (p : string) (d : mk) : Prop :=
  exists o, nth i (m_sinks d) None = Some (SFile (mkfsink p o)) /\ (fair0 -> o = true /\ file_of E (w_trace (m_world d)) p = Some []).
Definition fG (x : mk) : Prop := m_all x = true /\ List.length (m_sinks x) = List.length ps /\
  (forall q, dir_of E (w_trace (m_world d0)) q = true -> dir_of E (w_trace (m_world x)) q = true) /\
  (forall q, ~ In q ps -> file_of E (w_trace (m_world x)) q = file_of E (w_trace (m_world d0)) q).
Definition fgood (j : job mk) : Prop := exists i p, nth_error ps i = Some p /\ j = file_pool_job E i p.
Definition fAI (j r : job mk) (x : local) (d : mk) : Prop := fst x = true /\ exists i p, nth_error ps i = Some p /\ j = file_pool_job E i p /\
  (r = j \/ (r = skipn 1 j \/ r = skipn 2 j \/ r = []) /\ has i p d).
Definition fAE (j : job mk) (d : mk) : Prop := exists i p, nth_error ps i = Some p /\ j = file_pool_job E i p /\ has i p d.
Definition fokc (c : client mk) : Prop := c = CRet \/ c = read_all CRet \/
  (exists js, (forall j, In j js -> fgood j) /\ (c = pushes js (CWait (read_all CRet)) \/ c = batch js (read_all CRet))).
Lemma f_stable d d' : (forall i p, nth_error ps i = Some p -> has i p d -> has i p d') -> stable fAI (fun _ _ _ => False) fAE d d'.
Proof.
  intros H j. split; [|split; auto].
  - intros r x (A & i & p & N & J & K). split; auto. exists i, p. split; auto. split; auto. destruct K as [K|[K K']]; auto.
  - intros (i & p & N & J & K). exists i, p. auto.
Qed.
Lemma has_other i p j q o d w' : nth_error ps j = Some q -> nth_error ps i = Some p -> List.length (m_sinks d) = List.length ps ->
  (w_trace w' = w_trace (m_world d) ++ [EOpen q] /\ o = true \/ w_trace w' = w_trace (m_world d) /\ o = false /\ ~ fair0) ->
  has i p d \/ i = j -> has i p (mkmk w' (m_all d) (upd (m_sinks d) j (Some (SFile (mkfsink q o)))) (m_out d)).
Proof.
  intros Nj Ni L T K. assert (Lj : (j < List.length (m_sinks d))%nat) by (rewrite L; apply nth_error_Some; congruence). unfold has. cbn [m_sinks m_world]. rewrite nth_upd by auto.
  destruct (Nat.eqb_spec j i) as [->|NE].
  - assert (p = q) as -> by congruence. exists o. split; auto. intros F. destruct T as [[-> ->]|(_ & _ & X)]; [|contradiction]. split; auto. rewrite file_of_app. cbn. rewrite eqb_self. auto.
  - destruct K as [(o' & A & B)|K]; [|congruence]. exists o'. split; auto. intros F. destruct (B F) as [-> B']. split; auto. destruct T as [[-> _]|(_ & _ & X)]; [|contradiction].
    rewrite file_of_app. cbn. destruct (String.eqb q p); auto.
Qed.

Lemma files_ainv n t s : m_all d0 = true -> List.length (m_sinks d0) = List.length ps -> steps mk_error (init n (make_files_prog E ps CRet) d0) t s ->
  ainv fG fAI (fun _ _ _ => False) fAE fgood fokc t s.
Proof.
  intros HA HL H. refine (ainv_steps mk_error fG fAI (fun _ _ _ => False) fAE fgood fokc _ _ _ _ _ _ _ _ _ _ _ _ n _ d0 t s _ _ H).
  - intros f k x [X|[X|(js & J & [X|X])]] GD; try discriminate; [|destruct js; discriminate]. injection X as -> ->. split; [left; reflexivity|]. split; [exact GD|]. apply f_stable. intros i p _ K. exact K.
  - intros j k b [X|[X|(js & J & [X|X])]]; try discriminate. destruct js as [|j0 js]; [discriminate|]. injection X as -> ->. split; [apply J; left; reflexivity|]. destruct b; [|left; reflexivity]. right. right. exists js. split; [intros; apply J; right; auto|]. auto.
  - intros m k [X|[X|(js & J & [X|X])]]; try discriminate; [destruct js; discriminate|]. injection X as -> ->. right. right. exists js. auto.
  - intros k [X|[X|(js & J & [X|X])]]; try discriminate. destruct js; [|discriminate]. injection X as ->. right. left. reflexivity.
  - intros k [X|[X|(js & J & [X|X])]]; try discriminate. destruct js; discriminate.
  - intros k [X|[X|(js & J & [X|X])]]; try discriminate. destruct js; discriminate.
  - intros j x (i & p & N & ->) _. split; auto. exists i, p. auto.
  - intros j f r x y x' y' _ (G1 & G2 & G3 & G4) (I1 & i & p & N & -> & I2) FX. unfold file_pool_job in I2. cbn [skipn] in I2.
    destruct I2 as [X|[[X|[X|X]] K]]; try discriminate; injection X as -> ->.
    + rewrite G1 in FX. destruct (file_sink_what E p (m_world y)) as (w' & o & R & EE & T). rewrite R in FX. injection FX as <- <-.
      assert (Ip : In p ps) by (eapply nth_error_In; eauto).
      assert (T' : w_trace w' = w_trace (m_world y) ++ [EOpen p] /\ o = true \/ w_trace w' = w_trace (m_world y) /\ o = false /\ ~ fair0).
      { destruct T as [T|(T1 & T2 & T3)]; auto. right. split; auto. split; auto. intros [F1 F2]. apply T3. split; auto. }
      split; [|split].
      * unfold fG. cbn [m_all m_sinks m_world]. split; [exact eq_refl|]. rewrite upd_length. split; auto. split.
        -- intros q Hq. specialize (G3 q Hq). destruct T as [[-> _]|[-> _]]; auto. unfold dir_of. rewrite fold_left_app. cbn. exact G3.
        -- intros q Hq. rewrite <- (G4 q Hq). destruct T as [[-> _]|[-> _]]; auto. rewrite file_of_app. cbn. destruct (String.eqb_spec p q); auto. subst. contradiction.
      * split; auto. exists i, p. split; auto. split; auto. right. split; [left; reflexivity|]. pose proof (has_other i p i p o y w' N N G2 T' (or_intror eq_refl)) as Q. rewrite G1 in Q. exact Q.
      * apply f_stable. intros i' p' N' K. pose proof (has_other i' p' i p o y w' N N' G2 T' (or_introl K)) as Q. rewrite G1 in Q. exact Q.
    + injection FX as <- <-. split; [split; cbn; [rewrite G1, I1; reflexivity|auto]|]. split.
      * split; auto. exists i, p. split; [exact N|]. split; [reflexivity|]. right. split; [right; right; reflexivity|]. exact K.
      * apply f_stable. intros i' p' _ K'. exact K'.
  - intros j r x y (I1 & i & p & N & -> & I2). split; auto. exists i, p. split; auto. split; auto. unfold file_pool_job in I2 |- *. cbn [skipn] in I2 |- *. destruct I2 as [X|[[X|[X|X]] K]]; try discriminate. injection X as ->. right. auto.
  - intros j m x _ (_ & i & p & N & -> & K). exists i, p. split; auto. split; auto. destruct K as [K|[_ K]]; [discriminate|auto].
  - intros j m x _ (X & _). discriminate.
  - intros j m x _ [].
  - right. right. eexists. split; [|right; reflexivity]. intros j Hj. apply in_map_iff in Hj as ([i p] & <- & Hp). exists i, p. split; auto. cbn [fst snd].
    apply In_nth_error in Hp as (k & Hk). 
    assert (X : nth_error (seq 0 (List.length ps)) k = Some i /\ nth_error ps k = Some p).
    { revert Hk. generalize (seq 0 (List.length ps)). clear. intros l. revert k l. induction ps as [|a r IH]; intros [|k] [|b l]; cbn; try discriminate; auto. intros X. injection X as -> ->. auto. }
    destruct X as [X Y]. apply nth_error_nth with (d := 0%nat) in X as Z. assert (k < List.length (seq 0 (List.length ps)))%nat by (apply nth_error_Some; congruence). rewrite seq_length in H0. rewrite seq_nth in Z by auto. cbn in Z. congruence.
  - split; auto.
Qed.
End Files.
Lemma file_job_inj E i p i' p' : file_pool_job E i p = file_pool_job E i' p' -> i = i' /\ p = p'.
Proof.
  intros H. unfold file_pool_job in H. injection H as H.
  pose proof (f_equal (fun f => m_sinks (snd (f (true, "") (mkmk (mkworld [] 0 0 "") true (repeat None (S (i + i'))) None)))) H) as Q. cbv beta in Q. cbn [m_all m_world] in Q.
  destruct (file_sink_what E p (mkworld [] 0 0 "")) as (w1 & o1 & R1 & _). destruct (file_sink_what E p' (mkworld [] 0 0 "")) as (w2 & o2 & R2 & _). rewrite R1, R2 in Q. cbn [snd m_sinks] in Q.
  pose proof (f_equal (fun l => nth i l None) Q) as Q1. cbv beta in Q1. rewrite !nth_upd, Nat.eqb_refl in Q1 by (rewrite repeat_length; lia).
  destruct (Nat.eqb_spec i' i) as [->|NE]; [|exfalso; rewrite nth_repeat in Q1; discriminate]. injection Q1 as -> _. auto.
Qed.
Lemma enumerated ps i (p : string) : nth_error ps i = Some p -> In (i, p) (combine (seq 0 (List.length ps)) ps).
Proof.
  enough (G : forall k i, nth_error ps i = Some p -> In ((k + i)%nat, p) (combine (seq k (List.length ps)) ps)) by (intros H; exact (G 0%nat i H)).
  clear i. induction ps as [|a r IH]; intros k [|i] H; cbn in *; try discriminate.
  - injection H as ->. left. f_equal. lia.
  - right. replace (k + S i)%nat with (S k + i)%nat by lia. auto.
Qed.
Lemma files_disciplined E ps : disciplined false 0 (make_files_prog E ps CRet).
Proof.
  apply C20_batches_are_disciplined; [|constructor; intros; constructor]. apply Forall_forall. intros j Hj. apply in_map_iff in Hj as ([i p] & <- & _). reflexivity.
Qed.
Lemma files_at_pass E ps n d t1 t2 s : m_all d = true -> List.length (m_sinks d) = List.length ps ->
  steps mk_error (init n (make_files_prog E ps CRet) d) (t1 ++ LPass :: t2) s -> forall i p, nth_error ps i = Some p -> has E ps d i p (data s).
Proof.
  intros HA HL H i p N. assert (HI : forall t s, steps mk_error (init n (make_files_prog E ps CRet) d) t s -> ainv (fG E ps d) (fAI E ps d) (fun _ _ _ => False) (fAE E ps d) (fgood E ps) (fokc E ps) t s) by (intros; eapply files_ainv; eauto).
  pose proof H as H'. change (LPass :: t2) with ([LPass] ++ t2) in H'. rewrite app_assoc in H'. apply steps_split in H' as (s1 & H1 & _).
  pose proof (C20_wait_means_written _ _ _ _ _ _ _ (files_disciplined E ps) H1) as W.
  destruct (batch_accepted _ _ _ _ _ _ _ H1 ltac:(apply in_app_iff; right; left; reflexivity) (file_pool_job E i p)) as (id & Hid); [apply (in_map (fun ip => file_pool_job E (fst ip) (snd ip)) _ _ (enumerated ps i p N))|].
  apply in_app_iff in Hid as [Hid|[Hid|[]]]; [|discriminate].
  assert (FG : fgood E ps (file_pool_job E i p)) by (exists i, p; auto).
  assert (IJ : forall i' p', file_pool_job E i p = file_pool_job E i' p' -> has E ps d i' p' (data s) -> has E ps d i p (data s)) by (intros i' p' X; apply file_job_inj in X as [-> ->]; auto).
  assert (NC : forall k, ~ fokc E ps (CClear k)) by (intros k [X|[X|(js & J & [X|X])]]; try discriminate; destruct js; discriminate).
  assert (HB : forall j, fgood E ps j -> (0 < nacts (before j))%nat) by (intros j (i1 & p1 & _ & ->); cbn; lia).
  destruct (passed mk_error (fG E ps d) (fAI E ps d) (fun _ _ _ => False) (fAE E ps d) (fgood E ps) (fokc E ps) NC n _ d t1 t2 s HI W HB H id _ Hid FG) as [(pre & r & x & J & P & (_ & i' & p' & N' & J' & K))|[(m & [])|(i' & p' & N' & J' & K)]]; eauto.
  apply (IJ i' p' J'). destruct K as [->|[_ K]]; auto. exfalso. apply (f_equal (@List.length _)) in J. rewrite app_length in J. destruct pre; [cbn in P; lia|cbn [List.length] in J; lia].
Qed.

(** Whatever requests fail, on every schedule: when the caller is past the latch, at any later moment, slot i of the vector it gave to make_files_ is a sink
    for the i-th path; files that are not in the list have not been touched. *)
Theorem C46_make_files_sinks : forall E ps n d t s,
  m_all d = true -> List.length (m_sinks d) = List.length ps ->
  steps mk_error (init n (make_files_prog E ps CRet) d) t s -> In LPass t ->
  map (option_map (fun k => match k with SFile f => f_path f | _ => "" end)) (m_sinks (data s)) = map Some ps /\
  forall q, ~ In q ps -> file_of E (w_trace (m_world (data s))) q = file_of E (w_trace (m_world d)) q.
Proof.
  intros E ps n d t s HA HL H HP. destruct (v_data _ _ _ _ _ _ _ _ (files_ainv E ps d n t s HA HL H)) as (G1 & G2 & G3 & G4). split; [|exact G4].
  apply in_split in HP as (t1 & t2 & ->). apply nth_ext with (d := option_map (fun k => match k with SFile f => f_path f | _ => "" end) None) (d' := Some ""); [rewrite !map_length; exact G2|].
  intros i Hi. rewrite map_length in Hi. rewrite !map_nth. rewrite G2 in Hi.
  destruct (nth_error ps i) as [p|] eqn:N; [|apply nth_error_None in N; lia]. destruct (files_at_pass E ps n d t1 t2 s HA HL H i p N) as (o & -> & _). cbn. f_equal. symmetry. apply nth_error_nth. exact N.
Qed.
(** If no request fails and the directories exist: every schedule leaves the caller with what the sequential model returns (every sink is open on its file,
    in the order of the paths), and every file exists and is empty. *)
Theorem C21_make_files_any_schedule : forall E ps n d t s,
  (forall k, e_fault E k = false) -> (forall p, In p ps -> dir_of E (w_trace (m_world d)) (parent_path p) = true) ->
  m_all d = true -> List.length (m_sinks d) = List.length ps ->
  steps mk_error (init n (make_files_prog E ps CRet) d) t s -> In LPass t ->
  snd (make_files E ps (m_world d)) = Ok (m_sinks (data s)) /\
  m_sinks (data s) = map (fun p => Some (SFile (mkfsink p true))) ps /\
  forall p, In p ps -> file_of E (w_trace (m_world (data s))) p = Some [].
Proof.
  intros E ps n d t s HF HD HA HL H HP. destruct (v_data _ _ _ _ _ _ _ _ (files_ainv E ps d n t s HA HL H)) as (G1 & G2 & G3 & G4).
  apply in_split in HP as (t1 & t2 & ->). assert (F : fair0 E ps d) by (split; auto).
  assert (Q : m_sinks (data s) = map (fun p => Some (SFile (mkfsink p true))) ps).
  { apply nth_ext with (d := None) (d' := Some (SFile (mkfsink "" true))); [rewrite map_length; exact G2|]. intros i Hi. rewrite G2 in Hi.
    destruct (nth_error ps i) as [p|] eqn:N; [|apply nth_error_None in N; lia]. destruct (files_at_pass E ps n d t1 t2 s HA HL H i p N) as (o & -> & X). destruct (X F) as [-> _].
    rewrite (map_nth (fun p => Some (SFile (mkfsink p true)))), (nth_error_nth _ _ _ N). reflexivity. }
  split; [|split; [exact Q|]].
  - rewrite Q. unfold make_files. clear - HF HD.
    enough (G : forall w acc, (forall p, In p ps -> dir_of E (w_trace w) (parent_path p) = true) -> snd (mfold (fun acc p => s <- file_sink E p ;; job_done (true, "") ;;; ret (acc ++ [Some (SFile s)])%list) ps acc w) = Ok (acc ++ map (fun p => Some (SFile (mkfsink p true))) ps)) by exact (G (m_world d) [] HD).
    clear HD. induction ps as [|p r IH]; intros w acc HD; [cbn; rewrite app_nil_r; reflexivity|]. cbn [mfold map].
    destruct (file_sink_what E p w) as (w' & o & R & EE & T). destruct T as [[T ->]|(_ & _ & X)]; [|exfalso; apply X; split; auto; apply HD; left; reflexivity].
    erewrite bind_ok. 2:{ erewrite bind_ok by exact R. unfold job_done, ret, bind. cbn. reflexivity. }
    rewrite IH.
    + rewrite <- app_assoc. reflexivity.
    + intros q Hq. rewrite T. unfold dir_of. rewrite fold_left_app. cbn. apply (HD q). right. exact Hq.
  - intros p Hp. apply In_nth_error in Hp as (i & N). destruct (files_at_pass E ps n d t1 t2 s HA HL H i p N) as (o & _ & X). apply (X F).
Qed.

(** The hypotheses can be met: two files, two workers; the second job ends first. *)
Definition two_files : list string := ["a"; "b"].
Definition mk2 : mk := mkmk (mkworld [] 0 0 "") true [None; None] None.
Example C21_make_files_hypotheses : exists t s, steps mk_error (init 2 (make_files_prog jx_env two_files CRet) mk2) t s /\ In LPass t /\
  starts t = [0; 1]%nat /\ w_trace (m_world (data s)) = [EOpen "b"; EOpen "a"].
Proof.
  destruct (run_check mk_error [C 0; C 0; C 0; C 1; C 1; W 0; W 0; W 1; W 1; W 1; W 0; W 0; W 0; W 1; W 1; W 1; W 0; C 0] (init 2 (make_files_prog jx_env two_files CRet) mk2)
    (fun t s => zs_eqb (map Z.of_nat (starts t)) [0; 1] && match w_trace (m_world (data s)) with [EOpen x; EOpen y] => String.eqb x "b" && String.eqb y "a" | _ => false end && existsb (fun x => match x with LPass => true | _ => false end) t)) as (t & s & R & O); [vm_compute; reflexivity|].
  apply andb_prop in O as [O O3]. apply andb_prop in O as [O1 O2]. apply zs_eqb_eq in O1. exists t, s. split; auto. split; [apply existsb_exists in O3 as ([] & O4 & O5); try discriminate; auto|]. split.
  - destruct (starts t) as [|a [|b [|]]]; cbn in O1; try discriminate. injection O1 as A B. f_equal; [lia|f_equal; lia].
  - destruct (w_trace (m_world (data s))) as [|[] [|[] []]]; try discriminate. apply andb_prop in O2 as [X Y]. apply String.eqb_eq in X, Y. subst. reflexivity.
Qed.
(** *** directories *)
Section MkDirs.
Variables (E : env) (ps : list string) (d0 : mk).
Hypotheses (HF : forall i, e_fault E i = false) (HQ : forall i p, In p ps -> e_stat E i p = true).
Definition is_there (p : string) (d : mk) : Prop := dir_of E (w_trace (m_world d)) p = true.
Definition gG (x : mk) : Prop := m_all x = true /\ w_err (m_world x) = w_err (m_world d0) /\ (forall p, In p ps -> p <> "" /\ file_of E (w_trace (m_world x)) p = None).
Definition ggood (j : job mk) : Prop := exists p, In p ps /\ j = dir_pool_job E p.
Definition gAI (j r : job mk) (x : local) (d : mk) : Prop := fst x = true /\ ggood j /\ (r = j \/ (r = skipn 1 j \/ r = skipn 2 j \/ r = []) /\ forall p, j = dir_pool_job E p -> is_there p d).
Definition gAE (j : job mk) (d : mk) : Prop := forall p, j = dir_pool_job E p -> is_there p d.
Definition gokc (c : client mk) : Prop := c = CRet \/ c = read_all CRet \/
  (exists js, (forall j, In j js -> ggood j) /\ (c = pushes js (CWait (read_all CRet)) \/ c = batch js (read_all CRet))).
Lemma g_stable d d' : (forall p, is_there p d -> is_there p d') -> stable gAI (fun _ _ _ => False) gAE d d'.
Proof.
  intros H j. split; [|split; auto].
  - intros r x (A & B & K). split; auto. split; auto. destruct K as [K|[K K']]; auto.
  - intros K p J. auto.
Qed.
(** the body of the job, when nothing fails: the directory is there *)
Lemma dir_body_makes p d : In p ps -> gG d -> exists w', dir_body E p (m_all d) (m_world d) = (w', Ok (true, "")) /\ dir_of E (w_trace w') p = true /\ w_err w' = w_err (m_world d) /\
  (w_trace w' = w_trace (m_world d) \/ w_trace w' = w_trace (m_world d) ++ [EMkdir p]).
Proof.
  intros Hp (G1 & G2 & G3). destruct (G3 p Hp) as [N0 N1]. unfold dir_body. destruct (String.eqb_spec p "") as [E0|_]; [contradiction|]. unfold in_task, fs_is_directory, fs_exists, bind. rewrite (HQ _ p Hp).
  destruct (dir_of E (w_trace (m_world d)) p) eqn:DP.
  - eexists. split; [reflexivity|]. cbn. auto.
  - cbv beta iota. rewrite (HQ _ p Hp), DP, N1, andb_false_r. cbn [orb]. rewrite G1. unfold fs_create_directories, getM, bind. rewrite DP. destruct (String.eqb_spec p "") as [E0|_]; [contradiction|]. cbv beta iota delta [orb next_tick]. rewrite HF. cbn.
    eexists. split; [reflexivity|]. cbn. split; [|auto]. unfold dir_of. rewrite fold_left_app. cbn [fold_left dir_step]. rewrite under_refl, orb_true_r. destruct (String.eqb_spec p ""); [contradiction|reflexivity].
Qed.
Lemma dirs_ainv n t s : gG d0 -> steps mk_error (init n (make_dirs_prog E ps CRet) d0) t s -> ainv gG gAI (fun _ _ _ => False) gAE ggood gokc t s.
Proof.
  intros HG H. refine (ainv_steps mk_error gG gAI (fun _ _ _ => False) gAE ggood gokc _ _ _ _ _ _ _ _ _ _ _ _ n _ d0 t s _ HG H).
  - intros f k x [X|[X|(js & J & [X|X])]] GD; try discriminate; [|destruct js; discriminate]. injection X as -> ->. split; [left; reflexivity|]. split; [exact GD|]. apply g_stable. intros p K. exact K.
  - intros j k b [X|[X|(js & J & [X|X])]]; try discriminate. destruct js as [|j0 js]; [discriminate|]. injection X as -> ->. split; [apply J; left; reflexivity|]. destruct b; [|left; reflexivity]. right. right. exists js. split; [intros; apply J; right; auto|]. auto.
  - intros m k [X|[X|(js & J & [X|X])]]; try discriminate; [destruct js; discriminate|]. injection X as -> ->. right. right. exists js. auto.
  - intros k [X|[X|(js & J & [X|X])]]; try discriminate. destruct js; [|discriminate]. injection X as ->. right. left. reflexivity.
  - intros k [X|[X|(js & J & [X|X])]]; try discriminate. destruct js; discriminate.
  - intros k [X|[X|(js & J & [X|X])]]; try discriminate. destruct js; discriminate.
  - intros j x G _. split; auto.
  - intros j f r x y x' y' (p & Hp & ->) G (I1 & I0 & I2) FX. destruct G as (G1 & G2 & G3). 
    destruct I2 as [X|[[X|[X|X]] K]]; unfold dir_pool_job in X; cbn [skipn] in X; try discriminate; injection X as -> ->.
    + destruct (dir_body_makes p y Hp (conj G1 (conj G2 G3))) as (w' & R & DD & EE & T). rewrite R in FX. injection FX as <- <-.
      assert (MO : forall q, dir_of E (w_trace (m_world y)) q = true -> dir_of E (w_trace w') q = true).
      { intros q Q. destruct T as [->| ->]; auto. apply dir_of_mkdir. exact Q. }
      split; [|split].
      * split; [exact G1|]. split; [cbn; congruence|]. intros q Hq. destruct (G3 q Hq) as [A B]. split; auto. cbn. destruct T as [->| ->]; auto. rewrite file_of_app. cbn. exact B.
      * split; auto. split; auto. right. split; [left; reflexivity|]. intros p' J. unfold is_there. cbn [m_world].
        unfold dir_pool_job in J. injection J as J. pose proof (f_equal (fun f => f (true, "") y) J) as Q. cbv beta in Q. rewrite R in Q.
        destruct (dir_body_run E p' (m_all y) (m_world y)) as (w2 & l2 & R2 & T2 & DD2). rewrite R2 in Q. cbn [local_of] in Q. injection Q as Q1 Q2. subst w2. apply DD2; [rewrite <- Q1; reflexivity|exact G1].
      * apply g_stable. intros q Q. apply MO. exact Q.
    + injection FX as <- <-. split; [split; cbn; [rewrite G1, I1; reflexivity|auto]|]. split.
      * split; [exact I1|]. split; [exact I0|]. right. split; [right; right; reflexivity|]. exact K.
      * apply g_stable. intros q Q. exact Q.
  - intros j r x y (I1 & (p & Hp & ->) & I2). split; auto. split; [exists p; auto|]. destruct I2 as [X|[[X|[X|X]] K]]; unfold dir_pool_job in X; cbn [skipn] in X; try discriminate. injection X as ->. right. split; auto.
  - intros j m x _ (_ & (p & Hp & ->) & K). destruct K as [K|[_ K]]; [discriminate|exact K].
  - intros j m x _ (X & _). discriminate.
  - intros j m x _ [].
  - right. right. exists (map (dir_pool_job E) ps). split; [|right; reflexivity]. intros j Hj. apply in_map_iff in Hj as (p & <- & Hp). exists p. auto.
Qed.
End MkDirs.
Lemma dirs_disciplined E ps : disciplined false 0 (make_dirs_prog E ps CRet).
Proof.
  apply C20_batches_are_disciplined; [|constructor; intros; constructor]. apply Forall_forall. intros j Hj. apply in_map_iff in Hj as (p & <- & _). reflexivity.
Qed.
(** make_dirs_ when nothing fails, on every schedule: as soon as the caller is past the latch every directory exists, although jobs may still be running;
    what it returns is true, and no error is recorded. *)
Theorem C21_make_dirs_any_schedule : forall E ps n d t s,
  (forall i, e_fault E i = false) -> (forall i p, In p ps -> e_stat E i p = true) ->
  (forall p, In p ps -> p <> "" /\ file_of E (w_trace (m_world d)) p = None) -> m_all d = true ->
  steps mk_error (init n (make_dirs_prog E ps CRet) d) t s -> In LPass t ->
  snd (make_dirs E ps (m_world d)) = Ok true /\
  m_all (data s) = true /\ w_err (m_world (data s)) = w_err (m_world d) /\
  forall p, In p ps -> dir_of E (w_trace (m_world (data s))) p = true.
Proof.
  intros E ps n d t s HF HQ HN HA H HP. assert (HG : gG E ps d d) by (split; auto).
  assert (HI : forall t s, steps mk_error (init n (make_dirs_prog E ps CRet) d) t s -> ainv (gG E ps d) (gAI E ps) (fun _ _ _ => False) (gAE E) (ggood E ps) (gokc E ps) t s) by (intros; eapply dirs_ainv; eauto).
  destruct (v_data _ _ _ _ _ _ _ _ (HI t s H)) as (G1 & G2 & G3). split; [|split; [exact G1|]; split; [exact G2|]].
  - clear - HF HQ HN. unfold make_dirs. enough (G : forall w, (forall p, In p ps -> p <> "" /\ file_of E (w_trace w) p = None) -> snd (mfold (make_dir_job E) ps true w) = Ok true) by (exact (G _ HN)).
    clear HN. induction ps as [|p r IH]; intros w HN; [reflexivity|]. cbn [mfold].
    assert (J : exists w', make_dir_job E true p w = (w', Ok true) /\ forall q, file_of E (w_trace w') q = file_of E (w_trace w) q).
    { destruct (HN p (or_introl eq_refl)) as [N0 N1]. assert (Q : forall i, e_stat E i p = true) by (intros; apply HQ; left; reflexivity). unfold make_dir_job. destruct (String.eqb_spec p "") as [E0|_]; [contradiction|].
      unfold in_task, fs_is_directory, fs_exists, job_done, bind. rewrite Q. destruct (dir_of E (w_trace w) p) eqn:DP.
      - eexists. cbn. split; reflexivity.
      - cbv beta iota. rewrite Q, DP, N1, andb_false_r. cbn [orb]. unfold fs_create_directories, getM, bind. rewrite DP. destruct (String.eqb_spec p "") as [E0|_]; [contradiction|]. cbv beta iota delta [orb next_tick]. rewrite HF. cbn.
        eexists. split; [reflexivity|]. intros q. cbn. unfold file_of. rewrite ?fold_left_app. reflexivity. }
    destruct J as (w' & J1 & J2). erewrite bind_ok by exact J1. apply IH.
    + intros i q Hq. apply HQ. right. exact Hq.
    + intros q Hq. rewrite J2. apply HN. right. exact Hq.
  - intros p Hp. apply in_split in HP as (t1 & t2 & ->).
    pose proof H as H'. change (LPass :: t2) with ([LPass] ++ t2) in H'. rewrite app_assoc in H'. apply steps_split in H' as (s1 & H1 & _).
    pose proof (C20_wait_means_written _ _ _ _ _ _ _ (dirs_disciplined E ps) H1) as W.
    destruct (batch_accepted _ _ _ _ _ _ _ H1 ltac:(apply in_app_iff; right; left; reflexivity) (dir_pool_job E p)) as (id & Hid); [apply in_map; exact Hp|].
    apply in_app_iff in Hid as [Hid|[Hid|[]]]; [|discriminate].
    assert (FG : ggood E ps (dir_pool_job E p)) by (exists p; auto).
    assert (NC : forall k, ~ gokc E ps (CClear k)) by (intros k [X|[X|(js & J & [X|X])]]; try discriminate; destruct js; discriminate).
    assert (HB : forall j, ggood E ps j -> (0 < nacts (before j))%nat) by (intros j (p1 & _ & ->); cbn; lia).
    destruct (passed mk_error (gG E ps d) (gAI E ps) (fun _ _ _ => False) (gAE E) (ggood E ps) (gokc E ps) NC n _ d t1 t2 s HI W HB H id _ Hid FG) as [(pre & r & x & J & P & (_ & _ & K))|[(m & [])|K]]; [|exact (K p eq_refl)].
    destruct K as [->|[_ K]]; [|exact (K p eq_refl)]. exfalso. apply (f_equal (@List.length _)) in J. rewrite app_length in J. destruct pre; [cbn in P; lia|cbn [List.length] in J; lia].
Qed.
Print Assumptions C46_make_files_sinks.
Print Assumptions C21_make_files_any_schedule.
Print Assumptions C21_make_dirs_any_schedule.
