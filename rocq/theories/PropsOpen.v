(** C50: a stream leaks no file descriptor and keeps a bounded number of files open. *)
Require Import ZArith List Bool String Ascii Lia.
Require Import Verif.Base Verif.Spec Verif.Dim Verif.Json Verif.World Verif.Writer Verif.FrameProofs Verif.Stream Verif.Api Verif.OpenSpec Verif.OpenProofs Verif.BoundProofs Verif.PropsReport.
Require Verif.Examples.
Import ListNotations.
Open Scope string_scope. Open Scope list_scope. Open Scope Z_scope.

Lemma zlen_cons {A} (a : A) l : zlen (a :: l) = 1 + zlen l.
Proof. unfold zlen. cbn [List.length]. lia. Qed.
Lemma bal_some evs p : bal evs (Some p) = opened p evs - closed p evs.
Proof. unfold opened, closed. induction evs as [|e l IH]; [reflexivity|]. cbn [bal filter]. rewrite IH. destruct e; cbn [ev_bal one]; try destruct (String.eqb _ _); rewrite ?zlen_cons; lia. Qed.
Lemma bal_none evs : bal evs None = left_open evs.
Proof. unfold left_open. induction evs as [|e l IH]; [reflexivity|]. cbn [bal filter]. rewrite IH. destruct e; cbn [ev_bal one]; rewrite ?zlen_cons; lia. Qed.
(** the events between two moments *)
Definition since (w w' : world) (evs : list event) : Prop := w_trace w' = w_trace w ++ evs.

(** *** No leak *)
(** Create a stream, append any data in any number of calls, destroy it. If no stream was created, or if destroy deleted the stream, every file has
    been closed as often as it was opened. For all settings (version 2 or 3, S3 or not, multiscale or not), all data, all patterns of failing requests. *)
Theorem C50_no_leak : forall E st calls w w' r,
  session E st calls w = (w', Ok r) -> (forall rs d, r = Some (rs, d) -> d = true) ->
  exists evs, since w w' evs /\ forall p, opened p evs = closed p evs.
Proof.
  intros E st calls w w' r S H. destruct (session_open E st calls w w' r S) as (e & T & B).
  - destruct r as [[rs d]|]; [eapply H; reflexivity|exact I].
  - exists e. split; [exact T|]. intros p. pose proof (B (Some p)) as X. rewrite bal_some in X. lia.
Qed.
(** In particular the constructor, when it fails half-way, closes what it has opened. *)
Theorem C50_failed_create : forall E st w w', api_create E (Some st) w = (w', Ok None) ->
  exists evs, since w w' evs /\ forall p, opened p evs = closed p evs.
Proof.
  intros E st w w' C. destruct (create_open E st w w' None C) as (e & T & B). exists e. split; [exact T|]. intros p. pose proof (B (Some p)) as X. rewrite bal_some in X. lia.
Qed.

(** *** Boundedly many open files *)
Lemma create_few E st w w' s : api_create E (Some st) w = (w', Ok (Some s)) -> Ft (shape_of (s_writers s)) (s, w') /\
  exists s0 n, commit st = Ok s0 /\ create_writers (set_fbuf s0 (zrep 0 n) 0) = Ok (s_writers s) /\ bytes_of_frame (s_dims s0) (s_dtype s0) = Ok n.
Proof.
  unfold api_create, catchM, bind at 1. destruct (new_stream E (Some st) w) as [w1 [s1|m| |]] eqn:N; try discriminate. intros X. injection X as <- <-. split; [eapply new_few; eauto|].
  revert N. unfold new_stream. destruct (validate_settings E w (Some st)) as [[]|e| |]; try discriminate. intros X.
  apply b_ok in X as (w2 & s0 & C & X). apply b_ok in X as (w3 & n & NB & X). cbv zeta in X. apply b_ok in X as (w4 & ok & _ & X). apply b_ok in X as (w5 & u & _ & X). apply b_ok in X as (w6 & ws & CW & X). apply l_ok in CW as [CW ->]. apply l_ok in C as [C ->]. apply l_ok in NB as [NB ->].
  exists s0, n. split; [exact C|]. split; [|exact NB]. rewrite CW. f_equal.
  match type of X with (let '(_, _) := ?m (?s', ?w0) in _) = _ => set (s9 := s') in X; set (m0 := m) in X; set (w9 := w0) in X end. clearbody w9.
  assert (S2 : s_writers s9 = ws) by (unfold s9; cbn [s_multi set_writers set_fbuf]; destruct (s_multi s0); reflexivity).
  assert (K : pres (wr ws) any m0) by (unfold m0; repeat (eapply pres_bind with (P := any); [first [apply k_create|apply k_expect|apply k_base|apply k_group|apply k_external]|intros ? _]); apply k_expect).
  destruct (K (s9, w9) S2) as [K1 _]. destruct (m0 (s9, w9)) as [[s' w8] r]. destruct r as [u1|m| |]; try discriminate. injection X as _ <-. symmetry. exact K1.
Qed.
Lemma running_le E st w w1 s calls w2 s2 r : api_create E (Some st) w = (w1, Ok (Some s)) -> api_appends E calls (s, w1) = ((s2, w2), r) ->
  exists evs, since w w2 evs /\ left_open evs <= bound (shape_of (s_writers s)).
Proof.
  intros C A. destruct (create_open E st w w1 _ C) as (e1 & T1 & B1). destruct (appends_open E calls _ _ _ _ _ A) as (e2 & T2 & B2).
  exists (e1 ++ e2). unfold since. rewrite T2, T1, app_assoc. split; [reflexivity|].
  rewrite <- bal_none, bal_app, B1, B2. destruct (create_few _ _ _ _ _ C) as [F _]. destruct (ft_appends E _ calls (s, w1) F) as [G _]. rewrite A in G. apply stream_le in G. lia.
Qed.
(** For every stream settings there is a bound on the number of files that are open at the same time, between any two calls of the API: it does not
    depend on the data, nor on how many frames were appended, nor on failures. *)
Theorem C50_bounded : forall st, exists B, forall E w w1 s calls w2 s2 r,
  api_create E (Some st) w = (w1, Ok (Some s)) -> api_appends E calls (s, w1) = ((s2, w2), r) ->
  exists evs, since w w2 evs /\ left_open evs <= B.
Proof.
  intros st. set (o := match commit st with Ok s0 => match bytes_of_frame (s_dims s0) (s_dtype s0) with Ok n => create_writers (set_fbuf s0 (zrep 0 n) 0) | _ => UB end | _ => UB end).
  exists (match o with Ok ws => bound (shape_of ws) | _ => 0 end). intros E w w1 s calls w2 s2 r C A. destruct (create_few _ _ _ _ _ C) as [_ (s0 & n & D1 & D2 & D3)].
  assert (X : o = Ok (s_writers s)) by (unfold o; rewrite D1, D3, D2; reflexivity). rewrite X. eapply running_le; eauto.
Qed.

Lemma u32_le x : 0 <= x -> u32 x <= x.
Proof. intros H. unfold u32. apply Z.mod_le; lia. Qed.
Lemma cnt_le v (d : udim) : 0 <= u_array d -> 0 < u_chunk d -> (v = true -> 0 < u_shard d) ->
  Z.of_nat (cnt (if v then shards_along_dimension else chunks_along_dimension) (dim_of d)) <= files_along (if v then 3 else 2) d /\ 0 <= files_along (if v then 3 else 2) d.
Proof.
  intros A B C. assert (N : 0 <= u32 (u_array d + u_chunk d - 1) / u_chunk d <= ceil_div (u_array d) (u_chunk d)).
  { unfold ceil_div. split; [apply Z.div_pos; [unfold u32; apply Z.mod_pos_bound; lia|lia]|]. apply Z.div_le_mono; [lia|]. apply u32_le. lia. }
  unfold cnt, files_along, shards_along_dimension, chunks_along_dimension. destruct v; [change (3 =? 3) with true|change (2 =? 3) with false]; cbv iota; change (d_chunk (dim_of d)) with (u_chunk d); change (d_array (dim_of d)) with (u_array d); change (d_shard (dim_of d)) with (u_shard d).
  - specialize (C eq_refl). rewrite (proj2 (Z.eqb_neq _ _)) by lia. rewrite (proj2 (Z.ltb_lt _ _)) by lia. cbn [obind].
    set (m := u32 (u_array d + u_chunk d - 1) / u_chunk d) in *. set (k := ceil_div _ _) in *.
    assert (X : 0 <= u32 (m + u_shard d - 1) / u_shard d) by (apply Z.div_pos; [unfold u32; apply Z.mod_pos_bound; lia|lia]). rewrite Z2Nat.id by exact X.
    assert (Y : u32 (m + u_shard d - 1) / u_shard d <= ceil_div k (u_shard d)); [|lia]. unfold ceil_div. apply Z.div_le_mono; [lia|]. eapply Z.le_trans; [apply u32_le; lia|]. lia.
  - rewrite (proj2 (Z.ltb_lt _ _)) by lia. rewrite Z2Nat.id by lia. lia.
Qed.
Lemma plen_le v (ds : list udim) : (2 < List.length ds)%nat -> Forall (fun d => 0 <= u_array d /\ 0 < u_chunk d /\ (v = true -> 0 < u_shard d)) (tl ds) ->
  Z.of_nat (plen (map dim_of ds) (if v then shards_along_dimension else chunks_along_dimension)) <= files_of (if v then 3 else 2) (tl ds).
Proof.
  intros L H. set (f := cnt (if v then shards_along_dimension else chunks_along_dimension)).
  assert (G : forall l n, fold_left (fun n d => n * f d)%nat l n = (n * fold_right (fun d k => f d * k)%nat 1%nat l)%nat).
  { induction l as [|d l IH]; intros n; cbn [fold_left fold_right]; [lia|]. rewrite IH. lia. }
  assert (P : plen (map dim_of ds) (if v then shards_along_dimension else chunks_along_dimension) = fold_right (fun d k => f d * k)%nat 1%nat (map dim_of (tl ds))).
  { unfold plen. fold f. rewrite G. destruct ds as [|d ds]; [cbn in L; lia|]. cbn [map tl List.length] in *. rewrite map_length. unfold width_dim, at_dim.
    destruct (exists_last (l := ds)) as (ini & x & E); [destruct ds; [cbn in L; lia|discriminate]|]. subst ds. rewrite app_length in *. cbn [List.length] in *.
    rewrite map_app. cbn [map]. rewrite fold_right_app. cbn [fold_right].
    replace (S (List.length ini + 1) - 2)%nat with (List.length (map dim_of ini) + 0)%nat by (rewrite map_length; lia). rewrite firstn_app_2. cbn [firstn]. rewrite app_nil_r.
    assert (W : nth (S (List.length (map dim_of ini ++ [dim_of x])) - 1) (dim_of d :: map dim_of ini ++ [dim_of x]) dim0 = dim_of x).
    { rewrite app_length. cbn [List.length]. replace (S (List.length (map dim_of ini) + 1) - 1)%nat with (S (List.length (map dim_of ini))) by lia. cbn [nth]. rewrite nth_middle. reflexivity. }
    assert (Q : forall l k, fold_right (fun d k => f d * k)%nat k l = (fold_right (fun d k => f d * k)%nat 1%nat l * k)%nat) by (induction l as [|y l IH]; intros k; cbn; [lia|]; rewrite IH; lia).
    rewrite W. set (k1 := (f (dim_of x) * 1)%nat). rewrite (Q (map dim_of ini) k1). unfold k1. lia. }
  rewrite P. clear P G. unfold files_of. assert (Q : Z.of_nat (fold_right (fun d k => f d * k)%nat 1%nat (map dim_of (tl ds))) <= fold_right (fun d n => files_along (if v then 3 else 2) d * n) 1 (tl ds) /\ 0 <= fold_right (fun d n => files_along (if v then 3 else 2) d * n) 1 (tl ds)); [|apply Q].
  induction H as [|d l (A & B & C) _ IH]; cbn [map fold_right]; [lia|]. destruct (cnt_le v d A B C) as [X Y]. fold f in X. rewrite Nat2Z.inj_mul. split; [apply Z.mul_le_mono_nonneg; lia|apply Z.mul_nonneg_nonneg; lia].
Qed.
(** The bound for a stream of one resolution: one file for each chunk (version 2) or shard (version 3) that has a given index along the append
    dimension, and five for the metadata. *)
Theorem C50_bound : forall E st ds w w1 s calls w2 s2 r,
  st_version st = 2 \/ st_version st = 3 -> st_multi st = false -> st_dims st = Some ds ->
  Forall (fun d => 0 <= u_array d /\ 0 < u_chunk d /\ (st_version st = 3 -> 0 < u_shard d)) (tl ds) ->
  api_create E (Some st) w = (w1, Ok (Some s)) -> api_appends E calls (s, w1) = ((s2, w2), r) ->
  exists evs, since w w2 evs /\ left_open evs <= files_of (st_version st) (tl ds) + 5.
Proof.
  intros E st ds w w1 s calls w2 s2 r V M D R C A. destruct (running_le _ _ _ _ _ _ _ _ _ C A) as (e & T & B). exists e. split; [exact T|].
  destruct (create_few _ _ _ _ _ C) as [_ (s0 & n & D1 & D2 & _)]. unfold commit in D1. rewrite D in D1. destruct (make_dimensions (map dim_of ds)) as [ds'| | |] eqn:MD; try discriminate. cbn [obind] in D1. injection D1 as <-.
  unfold make_dimensions in MD. destruct (Nat.ltb 2 (List.length (map dim_of ds))) eqn:L; [|discriminate]. apply Nat.ltb_lt in L. rewrite map_length in L. injection MD as <-.
  unfold create_writers in D2. cbn [s_v3 set_fbuf base_config s_dims s_dtype s_bucket s_root s_comp s_multi] in D2. rewrite M in D2. set (c := base_config _) in D2. set (v := st_version st =? 3) in *.
  destruct (make_writer v c) as [a| | |] eqn:MW; try discriminate. cbn [obind] in D2. injection D2 as D2. rewrite <- D2 in B. unfold bound, shape_of in B. cbn [map fold_right fst snd] in B.
  assert (X : c_dims (a_cfg a) = map dim_of ds /\ a_v3 a = v) by (unfold make_writer in MW; destruct v; [destruct (number_of_shards _); try discriminate; cbn [obind] in MW|]; injection MW as <-; split; reflexivity).
  destruct X as [X1 X2]. rewrite X1, X2 in B.
  assert (VV : st_version st = if v then 3 else 2) by (unfold v; destruct V as [V|V]; rewrite V; reflexivity).
  assert (P : Z.of_nat (plen (map dim_of ds) (if v then shards_along_dimension else chunks_along_dimension)) <= files_of (if v then 3 else 2) (tl ds)).
  { apply plen_le; [exact L|]. eapply Forall_impl; [|exact R]. intros d (Y1 & Y2 & Y3). split; [exact Y1|]. split; [exact Y2|]. intros Z. apply Y3. rewrite VV, Z. reflexivity. }
  rewrite VV. lia.
Qed.

(** *** What the code does not do *)
(** Full statement: destroy always closes the files. False: if the final flush fails (here a directory cannot be created), destroy returns with the
    metadata file of the array open; the stream is leaked, nothing will ever close it. *)
Theorem C50_failed_destroy_refuted : exists E st calls w w' rs p,
  session E st calls w = (w', Ok (Some (rs, false))) /\ Forall (fun r => fst r = st_success) rs /\
  w_trace w = [] /\ opened p (w_trace w') = 1 /\ closed p (w_trace w') = 0.
Proof.
  exists (fx_env (Nat.eqb 16)), (fx_set 2 None), [[1; 2; 3; 4]; [5; 6; 7; 8]; [9; 10; 11; 12]], (mkworld [] 0 0 ""). eexists _, _, "out/0/.zarray".
  split; [vm_compute; reflexivity|]. split; [repeat constructor|]. split; [reflexivity|]. split; vm_compute; reflexivity.
Qed.

(** *** The hypotheses can be met *)
(** a session that opens files, and closes them all *)
Example C50_no_leak_hypotheses : forall v, v = 2 \/ v = 3 -> exists w' rs, session (fx_env (fun _ => false)) (fx_set v None) [[1; 2; 3; 4]; [5; 6; 7; 8]; [9; 10; 11; 12]] (mkworld [] 0 0 "") = (w', Ok (Some (rs, true))) /\
  opened (if v =? 2 then "out/0/0/0/0" else "out/data/root/0/c0/0/0") (w_trace w') = 1.
Proof. intros v [->| ->]; eexists _, _; (split; [vm_compute; reflexivity|vm_compute; reflexivity]). Qed.
(** a stream that is not created: the directory of the array cannot be made. (No failure of the filesystem makes the constructor fail after it has
    opened files: opening, writing and flushing a file always report success, C23_files_never_report.) *)
Example C50_failed_create_hypotheses : exists w', api_create (fx_env (Nat.eqb 1)) (Some (fx_set 2 None)) (mkworld [] 0 0 "") = (w', Ok None) /\ w_trace w' <> [].
Proof. eexists. split; [vm_compute; reflexivity|vm_compute; discriminate]. Qed.
(** while a stream of version 3 is appended to, files are open; the bound for these settings is 1 + 5 *)
Example C50_bounded_hypotheses : exists w1 s w2 s2 r,
  api_create (fx_env (fun _ => false)) (Some (fx_set 3 None)) (mkworld [] 0 0 "") = (w1, Ok (Some s)) /\
  api_appends (fx_env (fun _ => false)) [[1; 2; 3; 4]; [5; 6; 7; 8]] (s, w1) = ((s2, w2), r) /\ left_open (w_trace w2) = 4 /\
  match st_dims (fx_set 3 None) with Some ds => files_of 3 (tl ds) = 1 | None => False end.
Proof.
  assert (X : match api_create (fx_env (fun _ => false)) (Some (fx_set 3 None)) (mkworld [] 0 0 "") with
    | (w1, Ok (Some s)) => match api_appends (fx_env (fun _ => false)) [[1; 2; 3; 4]; [5; 6; 7; 8]] (s, w1) with ((s2, w2), r) => left_open (w_trace w2) = 4 end | _ => False end) by (vm_compute; reflexivity).
  destruct (api_create _ _ _) as [w1 [[s|]|m| |]] eqn:C; try contradiction. destruct (api_appends _ _ _) as [[s2 w2] r] eqn:A. exists w1, s, w2, s2, r. split; [reflexivity|]. split; [exact A|]. split; [exact X|]. vm_compute. reflexivity.
Qed.
Print Assumptions C50_no_leak.
Print Assumptions C50_failed_create.
Print Assumptions C50_bounded.
Print Assumptions C50_bound.
Print Assumptions C50_failed_destroy_refuted.
