(** Creating directories, files and the sinks of a flush, without failures. *)
Require Import ZArith List Bool String Ascii Lia Zify.
Require Import Verif.Base Verif.Spec Verif.Dim Verif.Radix Verif.Limits Verif.DimProofs Verif.PathProofs Verif.World Verif.SinkProofs.
Import ListNotations.
Open Scope string_scope.
Open Scope list_scope.
Open Scope Z_scope.

Definition is_mkdir (e : event) : Prop := match e with EMkdir _ => True | _ => False end.
Definition no_remove (e : event) : Prop := match e with ERemoveAll _ => False | _ => True end.
Lemma mkdir_affects l e : is_mkdir e -> ~ affects l e.
Proof. destruct e; simpl; tauto. Qed.

Lemma dir_of_mono E tr evs p : Forall no_remove evs -> dir_of E tr p = true -> dir_of E (tr ++ evs) p = true.
Proof.
  unfold dir_of. rewrite fold_left_app. destruct (String.eqb p ""); auto. cbn [negb andb].
  generalize (fold_left (dir_step p) tr (e_dir0 E p)) as c. induction evs as [|e evs IH]; simpl; intros c H Hc; auto.
  inv H. apply IH; auto. destruct e; simpl in *; rewrite ?Hc; auto; tauto.
Qed.
Lemma extends_dir E P w w' p : extends P w w' -> (forall e, P e -> no_remove e) ->
  dir_of E (w_trace w) p = true -> dir_of E (w_trace w') p = true.
Proof. intros (evs & -> & A & _) H. apply dir_of_mono. eapply Forall_impl; eauto. Qed.
Lemma under_refl p : under p p = true.
Proof. unfold under. rewrite eqb_self. auto. Qed.
Lemma dir_of_mkdir E tr d p : p <> "" -> under p d = true -> dir_of E (tr ++ [EMkdir d]) p = true.
Proof. intros Hp H. unfold dir_of. rewrite (proj2 (String.eqb_neq _ _) Hp). rewrite fold_left_app. simpl. rewrite H. rewrite !orb_true_r. auto. Qed.

Lemma mkdir_no_remove e : is_mkdir e -> no_remove e.
Proof. destruct e; simpl; tauto. Qed.
Lemma only_no_remove l e : only l e -> no_remove e.
Proof. destruct e; simpl; tauto. Qed.

Section Create.
Variable E : env.
Hypothesis HE : forall k, e_fault E k = false.
Hypothesis HQ : forall k p, e_stat E k p = true.

Lemma make_dir_job_ok d w :
  d <> "" -> file_of E (w_trace w) d = None ->
  exists w', make_dir_job E true d w = (w', Ok true) /\ extends is_mkdir w w' /\ dir_of E (w_trace w') d = true.
Proof.
  intros Hd Hf. unfold make_dir_job. rewrite (proj2 (String.eqb_neq _ _) Hd).
  unfold in_task, fs_is_directory, bind. rewrite HQ. destruct (dir_of E (w_trace w) d) eqn:Ed.
  - unfold job_done, ret. cbn. exists w. split; [auto|]. split; [apply extends_refl|auto].
  - unfold fs_exists, fs_create_directories, getM, bind, next_tick, emit, modM, job_done, ret.
    rewrite HQ, Ed, Hf, (proj2 (String.eqb_neq _ _) Hd). cbn. rewrite Ed. cbn. rewrite HE. cbn. eexists. split; [reflexivity|]. cbn [w_trace]. split.
    + exists [EMkdir d]. cbn. repeat split; auto. constructor; [simpl; auto|constructor].
    + apply dir_of_mkdir; [auto|apply under_refl].
Qed.

Lemma make_dirs_ok ds : forall w,
  Forall (fun d => d <> "" /\ file_of E (w_trace w) d = None) ds ->
  exists w', make_dirs E ds w = (w', Ok true) /\ extends is_mkdir w w'
    /\ Forall (fun d => dir_of E (w_trace w') d = true) ds.
Proof.
  unfold make_dirs. induction ds as [|d ds IH]; intros w H; simpl.
  - exists w. split; [reflexivity|]. split; [apply extends_refl|constructor].
  - inv H. destruct H2 as [H2 H2']. destruct (make_dir_job_ok d w H2 H2') as (w1 & R1 & R2 & R3).
    erewrite bind_ok by exact R1.
    destruct (IH w1) as (w2 & S1 & S2 & S3).
    + eapply Forall_impl; [|exact H3]. intros x [Hx1 Hx2]. split; auto.
      pose proof (extends_content E _ _ _ (LF x) R2 (fun e => mkdir_affects (LF x) e)) as X. simpl in X. congruence.
    + exists w2. split; auto. split; [eapply extends_trans; eauto|]. constructor; auto.
      eapply extends_dir; eauto. apply mkdir_no_remove.
Qed.

Lemma file_sink_open p w :
  dir_of E (w_trace w) (parent_path p) = true ->
  exists w', file_sink E p w = (w', Ok (mkfsink p true)) /\ extends (fun e => e = EOpen p) w w'
    /\ holds E w' (SFile (mkfsink p true)) [].
Proof.
  intros Hd. unfold file_sink, getM, bind, next_tick, parent_ok. rewrite Hd, HE, orb_true_r. cbn. unfold emit, modM, ret. cbn.
  eexists. split; [reflexivity|]. split.
  - eexists. cbn. split; [reflexivity|]. split; [constructor; [simpl; auto|constructor]|]. auto.
  - split; auto. cbn [w_trace f_path]. rewrite file_of_app. simpl. rewrite eqb_self. auto.
Qed.
Lemma file_sink_ok p w :
  dir_of E (w_trace w) (parent_path p) = true ->
  exists w', file_sink E p w = (w', Ok (mkfsink p true)) /\ extends (only (LF p)) w w'
    /\ holds E w' (SFile (mkfsink p true)) [].
Proof.
  intros Hd. destruct (file_sink_open p w Hd) as (w' & R & X & H). exists w'. split; [exact R|]. split; [|exact H].
  eapply extends_impl; [|exact X]. intros e ->. simpl. auto.
Qed.

(** sinks [ss] (in order) receive at locations [ls]; they hold [cs] *)
Definition sinks_hold (w : world) (ss : list (option sink)) (ls : list loc) (cs : list (list Z)) : Prop :=
  List.length ss = List.length ls /\ List.length cs = List.length ls /\
  forall i, (i < List.length ls)%nat ->
    exists s, nth i ss None = Some s /\ loc_of s = nth i ls (LF "") /\ holds E w s (nth i cs []).

Definition in_locs (ls : list loc) (e : event) : Prop := exists l, In l ls /\ only l e.
Lemma in_locs_affects ls l e : ~ In l ls -> in_locs ls e -> ~ affects l e.
Proof. intros H (l' & H1 & H2) Ha. apply H. rewrite (only_affects _ _ _ H2 Ha). auto. Qed.

Lemma make_files_ok paths : forall w,
  NoDup paths -> Forall (fun p => dir_of E (w_trace w) (parent_path p) = true) paths ->
  exists w' ss, make_files E paths w = (w', Ok ss) /\ extends (in_locs (map LF paths)) w w'
    /\ sinks_hold w' ss (map LF paths) (map (fun _ => []) paths).
Proof.
  unfold make_files.
  assert (G : forall paths w done ss0,
    NoDup (done ++ paths) -> Forall (fun p => dir_of E (w_trace w) (parent_path p) = true) paths ->
    sinks_hold w ss0 (map LF done) (map (fun _ => []) done) ->
    exists w' ss, mfold (fun acc p => s <- file_sink E p ;; job_done (true, "") ;;; ret (acc ++ [Some (SFile s)])%list) paths ss0 w = (w', Ok ss)
      /\ extends (in_locs (map LF paths)) w w'
      /\ sinks_hold w' ss (map LF (done ++ paths)) (map (fun _ => []) (done ++ paths))).
  { clear paths. induction paths as [|p paths IH]; intros w done ss0 Hnd Hd Hs.
    - rewrite app_nil_r. exists w, ss0. split; [reflexivity|]. split; [apply extends_refl|auto].
    - inv Hd. destruct (file_sink_ok p w H1) as (w1 & R1 & R2 & R3). cbn [mfold].
      erewrite bind_ok. 2:{ erewrite bind_ok by exact R1. unfold job_done, ret, bind. cbn. reflexivity. }
      destruct (IH w1 (done ++ [p]) (ss0 ++ [Some (SFile (mkfsink p true))])) as (w2 & ss & S1 & S2 & S3).
      + rewrite <- app_assoc. auto.
      + eapply Forall_impl; [|exact H2]. intros x Hx. eapply extends_dir; eauto. apply only_no_remove.
      + destruct Hs as (L1 & L2 & Hs). rewrite map_length in L1, L2, Hs. rewrite !map_length in *.
        split; [rewrite map_length, !app_length; simpl; lia|]. split; [rewrite !map_length; auto|].
        intros i Hi. rewrite map_length, app_length in Hi. cbn [List.length] in Hi. rewrite !map_app.
        destruct (Nat.lt_ge_cases i (List.length done)) as [Hlt|Hge].
        * destruct (Hs i Hlt) as (s & A1 & A2 & A3). exists s.
          rewrite !app_nth1 by (rewrite ?map_length; lia). split; auto. split; auto.
          eapply extends_holds; [exact R2| |exact A3]. intros e He Ha.
          pose proof (only_affects _ _ _ He Ha) as X. rewrite A2 in X.
          rewrite (map_nth LF) in X. inversion X; subst p.
          apply NoDup_remove_2 in Hnd. apply Hnd. apply in_or_app. left. apply nth_In; auto.
        * assert (i = List.length done) by lia. subst i. eexists.
          rewrite app_nth2 by lia. rewrite L1, Nat.sub_diag. split; [reflexivity|].
          rewrite !app_nth2 by (rewrite map_length; auto). rewrite !map_length, Nat.sub_diag. cbn. split; [auto|]. apply R3.
      + exists w2, ss. split; auto. split.
        * eapply extends_trans.
          -- eapply extends_impl; [|exact R2]. intros e He. exists (LF p). split; [left; auto|auto].
          -- eapply extends_impl; [|exact S2]. intros e (l & Hl & He). exists l. split; [right; auto|auto].
        * rewrite <- app_assoc in S3. auto. }
  intros w Hnd Hd. apply (G paths w [] []); auto. split; [auto|split; [auto|]]. simpl. intros; lia.
Qed.

(** ** the list of paths of one flush *)
Section Paths.
Variables (base : string) (d0 : dim) (mids : list dim) (dy dx : dim) (parts : dim -> outcome Z) (np : dim -> Z).
Let ds := d0 :: mids ++ [dy; dx].
Hypothesis Hparts : Forall (fun d => parts d = Ok (np d) /\ 0 < np d) (mids ++ [dy; dx]).
Hypothesis Hbase : base <> "".

Let ns := map np (mids ++ [dy; dx]).
Lemma ns_pos : allpos ns.
Proof. apply Forall_map. eapply Forall_impl; [|exact Hparts]. intros d [_ H]; auto. Qed.

Lemma inner_split : firstn (List.length ds - 2) (tl ds) = mids ++ [dy] /\ width_dim ds = dx.
Proof.
  split; [|apply width_dim_eq]. unfold ds. simpl. rewrite app_length. simpl.
  replace (List.length mids + 2 - 1)%nat with (List.length (mids ++ [dy])) by (rewrite app_length; simpl; lia).
  replace (mids ++ [dy; dx]) with ((mids ++ [dy]) ++ [dx]) by (rewrite <- app_assoc; auto).
  rewrite firstn_app, firstn_all, Nat.sub_diag. simpl. apply app_nil_r.
Qed.

(** no file sits where a directory is needed *)
Definition dirs_free (w : world) : Prop :=
  forall l, Forall (fun i => 0 <= i) l -> (List.length l <= List.length mids + 1)%nat ->
            file_of E (w_trace w) (path_of_coords base l) = None.

Lemma dirs_free_ext w w' : extends is_mkdir w w' -> dirs_free w -> dirs_free w'.
Proof.
  intros Hx H l Hl Hlen.
  pose proof (extends_content E _ _ _ (LF (path_of_coords base l)) Hx (fun e => mkdir_affects _ e)) as X. simpl in X.
  rewrite X. apply H; auto.
Qed.

Lemma grid_paths_free w l : dirs_free w -> allpos l -> (List.length l <= List.length mids + 1)%nat ->
  Forall (fun d => d <> "" /\ file_of E (w_trace w) d = None) (grid_paths base l).
Proof.
  intros Hfree Hp Hl. apply Forall_forall. intros d Hd. unfold grid_paths in Hd. apply in_map_iff in Hd as (cc & <- & Hcc).
  apply in_grid in Hcc; auto. split; [apply path_nonempty; auto|].
  apply Hfree; [apply in_bounds_nonneg in Hcc; auto|]. apply in_bounds_length in Hcc. lia.
Qed.

Lemma make_paths_ok (mk : bool) w :
  (mk = true -> dirs_free w) ->
  exists w', make_data_sink_paths E base ds parts mk w = (w', Ok (grid_paths base ns))
    /\ extends is_mkdir w w'
    /\ (mk = true -> Forall (fun p => dir_of E (w_trace w') (parent_path p) = true) (grid_paths base ns)).
Proof.
  intros Hfree. destruct inner_split as [I1 I2]. unfold make_data_sink_paths. rewrite I1, I2. clear I1 I2.
  set (step := fun (paths : list string) (d : dim) => _).
  (* base *)
  assert (Hb : exists w1, (if mk then ok <- make_dirs E [base] ;; expectM ok "Failed to create directory" else ret tt) w = (w1, Ok tt)
     /\ extends is_mkdir w w1 /\ (mk = true -> dir_of E (w_trace w1) base = true)).
  { destruct mk.
    - destruct (make_dirs_ok [base] w) as (w1 & R1 & R2 & R3).
      + constructor; [|constructor]. split; auto. apply (Hfree eq_refl []); [constructor|simpl; lia].
      + exists w1. erewrite bind_ok by exact R1. split; [reflexivity|]. split; auto. intros _. inv R3; auto.
    - exists w. split; [reflexivity|]. split; [apply extends_refl|discriminate]. }
  destruct Hb as (w1 & R1 & R2 & R3). erewrite bind_ok by exact R1.
  assert (Hfree1 : mk = true -> dirs_free w1) by (intros; eapply dirs_free_ext; eauto).
  (* inner dimensions *)
  assert (G : forall todo done w, mids ++ [dy] = done ++ todo -> (mk = true -> dirs_free w) ->
     (mk = true -> Forall (fun p => dir_of E (w_trace w) p = true) (grid_paths base (map np done))) ->
     exists w', mfold step todo (grid_paths base (map np done)) w = (w', Ok (grid_paths base (map np (mids ++ [dy]))))
       /\ extends is_mkdir w w'
       /\ (mk = true -> Forall (fun p => dir_of E (w_trace w') p = true) (grid_paths base (map np (mids ++ [dy]))))).
  { induction todo as [|d todo IH]; intros done w0 Heq Hfr Hdir.
    - rewrite app_nil_r in Heq. subst done. exists w0. split; [reflexivity|]. split; [apply extends_refl|auto].
    - assert (Hin : In d (mids ++ [dy; dx])).
      { replace (mids ++ [dy; dx]) with ((mids ++ [dy]) ++ [dx]) by (rewrite <- app_assoc; auto).
        rewrite Heq. apply in_or_app. left. apply in_or_app. right. left; auto. }
      rewrite Forall_forall in Hparts. destruct (Hparts d Hin) as [Hpd Hnd].
      assert (Hpos : allpos (map np done)).
      { apply Forall_map, Forall_forall. intros x Hx. apply Hparts.
        replace (mids ++ [dy; dx]) with ((mids ++ [dy]) ++ [dx]) by (rewrite <- app_assoc; auto).
        rewrite Heq. apply in_or_app. left. apply in_or_app. left; auto. }
      assert (Hlen : (List.length done + 1 <= List.length mids + 1)%nat).
      { apply (f_equal (@List.length dim)) in Heq. rewrite !app_length in Heq. simpl in Heq. lia. }
      assert (Hpos' : allpos (map np (done ++ [d]))).
      { rewrite map_app. apply allpos_app. split; auto. constructor; auto. }
      assert (Hstep : exists w2, step (grid_paths base (map np done)) d w0 = (w2, Ok (grid_paths base (map np (done ++ [d]))))
         /\ extends is_mkdir w0 w2 /\ (mk = true -> Forall (fun p => dir_of E (w_trace w2) p = true) (grid_paths base (map np (done ++ [d]))))).
      { unfold step. rewrite Hpd. rewrite (bind_ok (liftM (Ok (np d))) _ w0 w0 (np d)) by reflexivity.
        rewrite (proj2 (Z.eqb_neq (np d) 0)) by lia. cbn [negb expectM].
        rewrite (bind_ok (ret tt) _ w0 w0 tt) by reflexivity.
        rewrite extend_grid by auto.
        replace (map np done ++ [np d])%list with (map np (done ++ [d])) by (rewrite map_app; auto).
        destruct mk.
        - destruct (make_dirs_ok (grid_paths base (map np (done ++ [d]))) w0) as (w2 & Q1 & Q2 & Q3).
          + apply grid_paths_free; auto. rewrite map_length, app_length. simpl. lia.
          + exists w2. unfold bind. rewrite Q1. cbn. split; [reflexivity|]. auto.
        - exists w0. split; [reflexivity|]. split; [apply extends_refl|discriminate]. }
      destruct Hstep as (w2 & Q1 & Q2 & Q3). cbn [mfold]. erewrite bind_ok by exact Q1.
      destruct (IH (done ++ [d]) w2) as (w3 & S1 & S2 & S3); auto.
      + rewrite <- app_assoc. auto.
      + intros; eapply dirs_free_ext; eauto.
      + exists w3. split; auto. split; auto. eapply extends_trans; eauto. }
  destruct (G (mids ++ [dy]) [] w1) as (w2 & S1 & S2 & S3); auto.
  { intros Hm. constructor; [|constructor]. apply R3; auto. }
  change (grid_paths base (map np [])) with [base] in S1.
  rewrite (bind_ok _ _ _ _ _ S1).
  assert (Hdx : parts dx = Ok (np dx) /\ 0 < np dx).
  { rewrite Forall_forall in Hparts. apply Hparts. apply in_or_app. right. right. left. auto. }
  destruct Hdx as [Hdx1 Hdx2]. rewrite Hdx1.
  rewrite (bind_ok (liftM (Ok (np dx))) _ w2 w2 (np dx)) by reflexivity.
  rewrite (proj2 (Z.eqb_neq (np dx) 0)) by lia. cbn [negb expectM].
  rewrite (bind_ok (ret tt) _ w2 w2 tt) by reflexivity. unfold ret.
  assert (Hpy : allpos (map np (mids ++ [dy]))).
  { apply Forall_map, Forall_forall. intros x Hx. rewrite Forall_forall in Hparts. apply Hparts.
    apply in_app_or in Hx. apply in_or_app. destruct Hx as [Hx|Hx]; [left; auto|right]. simpl in *. tauto. }
  assert (Ens : (map np (mids ++ [dy]) ++ [np dx])%list = ns).
  { unfold ns. rewrite !map_app, <- app_assoc. auto. }
  rewrite final_grid by auto. rewrite Ens.
  exists w2. split; [auto|]. split; [eapply extends_trans; eauto|].
  intros Hm. specialize (S3 Hm). apply Forall_forall. intros p Hp.
  rewrite <- Ens, <- final_grid in Hp by auto. unfold final_paths in Hp. apply in_flat_map in Hp as (q & Hq & Hp).
  apply in_map_iff in Hp as (k & <- & _). rewrite parent_snoc by apply dec_no_slash.
  rewrite Forall_forall in S3. apply S3; auto.
Qed.

Lemma make_data_sinks_fs_ok w :
  strip_file base = base -> dirs_free w ->
  exists w' ss, make_data_sinks_fs E base ds parts w = (w', Ok (Some ss))
    /\ extends (fun e => is_mkdir e \/ in_locs (map LF (grid_paths base ns)) e) w w'
    /\ sinks_hold w' ss (map LF (grid_paths base ns)) (map (fun _ => []) (grid_paths base ns)).
Proof.
  intros Hs Hfree. unfold make_data_sinks_fs. rewrite Hs.
  rewrite (proj2 (String.eqb_neq _ _) Hbase). cbn [negb expectM]. rewrite (bind_ok (ret tt) _ w w tt) by reflexivity.
  destruct (make_paths_ok true w) as (w1 & R1 & R2 & R3); auto.
  erewrite bind_ok. 2:{ unfold catchM. erewrite bind_ok by exact R1. reflexivity. }
  destruct (make_files_ok (grid_paths base ns) w1) as (w2 & ss & S1 & S2 & S3).
  - apply grid_paths_nodup, ns_pos.
  - apply R3; auto.
  - erewrite bind_ok by exact S1. unfold ret. exists w2, ss. split; [auto|]. split; auto.
    eapply extends_trans; [eapply extends_impl; [|exact R2]; auto|eapply extends_impl; [|exact S2]; auto].
Qed.

Lemma make_data_sinks_s3_ok b w :
  b <> "" -> (0 < w_conns w)%nat ->
  exists w' ss, make_data_sinks_s3 E b base ds parts w = (w', Ok (Some ss))
    /\ extends is_mkdir w w'
    /\ sinks_hold w' ss (map (LO b) (grid_paths base ns)) (map (fun _ => []) (grid_paths base ns)).
Proof.
  intros Hb Hc. unfold make_data_sinks_s3.
  rewrite (proj2 (String.eqb_neq _ _) Hbase). cbn [negb expectM]. rewrite (bind_ok (ret tt) _ w w tt) by reflexivity.
  destruct (make_paths_ok false w) as (w1 & R1 & R2 & _); [discriminate|].
  erewrite bind_ok by exact R1. rewrite (proj2 (String.eqb_neq _ _) Hb).
  assert (Hc1 : (0 < w_conns w1)%nat) by (destruct R2 as (? & _ & _ & -> & _); auto).
  assert (G : forall paths done ss0, Forall (fun p => p <> "") paths ->
     sinks_hold w1 ss0 (map (LO b) done) (map (fun _ => []) done) ->
     exists ss, mfold (fun acc k => s <- s3_sink b k ;; ret (acc ++ [Some (SS3 s)])%list) paths ss0 w1 = (w1, Ok ss)
        /\ sinks_hold w1 ss (map (LO b) (done ++ paths)) (map (fun _ => []) (done ++ paths))).
  { induction paths as [|p paths IH]; intros done ss0 Hp Hs.
    - rewrite app_nil_r. exists ss0. auto.
    - inv Hp. cbn [mfold]. erewrite bind_ok.
      2:{ unfold s3_sink, bind, expectM, ret. rewrite (proj2 (String.eqb_neq _ _) Hb), (proj2 (String.eqb_neq _ _) H1). cbn. reflexivity. }
      destruct (IH (done ++ [p]) (ss0 ++ [Some (SS3 (mks3 b p [] 0 0 None))])) as (ss & S1 & S2); auto.
      + destruct Hs as (L1 & L2 & Hs). rewrite map_length in L1, L2, Hs. rewrite !map_length in *.
        split; [rewrite map_length, !app_length; simpl; lia|]. split; [rewrite !map_length; auto|].
        intros i Hi. rewrite map_length, app_length in Hi. cbn [List.length] in Hi. rewrite !map_app.
        destruct (Nat.lt_ge_cases i (List.length done)) as [Hlt|Hge].
        * destruct (Hs i Hlt) as (s & A1 & A2 & A3). exists s.
          rewrite !app_nth1 by (rewrite ?map_length; lia). auto.
        * assert (i = List.length done) by lia. subst i. eexists.
          rewrite app_nth2 by lia. rewrite L1, Nat.sub_diag. split; [reflexivity|].
          rewrite !app_nth2 by (rewrite map_length; auto). rewrite !map_length, Nat.sub_diag. cbn. split; [auto|].
          split; auto. split; [auto|]. split; [auto|]. cbn. split; [unfold part_size; lia|]. split; [apply zlen_nonneg|].
          exists []. auto.
      + exists ss. split; auto. rewrite <- app_assoc in S2. auto. }
  destruct (G (grid_paths base ns) [] []) as (ss & S1 & S2).
  - apply Forall_forall. intros p Hp. unfold grid_paths in Hp. apply in_map_iff in Hp as (cc & <- & _). apply path_nonempty; auto.
  - split; [auto|split; [auto|]]. simpl. intros; lia.
  - erewrite bind_ok by exact S1. unfold ret. exists w1, ss. auto.
Qed.
End Paths.
End Create.
