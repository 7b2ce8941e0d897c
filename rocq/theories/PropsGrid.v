(** C53 and C09: which files or objects a stream makes. [belongs], [level_of], [bytes_given] are in GridSpec.v, [item], [where_is], [handles] in
    LayoutSpec.v, [store_at] in FrameSpec.v, [sized], [whole_calls] in SafeSpec.v. *)
Require Import ZArith List Bool String Lia.
Require Import Verif.Base Verif.Spec Verif.Dim Verif.Limits Verif.World Verif.Writer Verif.Stream Verif.Api Verif.SettingsSpec Verif.SessionSpec Verif.PyramidSpec Verif.StoreSpec Verif.SafeSpec
  Verif.FrameSpec Verif.LayoutSpec Verif.GridSpec.
Require Import Verif.FrameProofs Verif.FrameStream Verif.MetaProofs Verif.SessionProofs Verif.PyramidProofs Verif.SafeStream Verif.ExamplesUse Verif.PropsChunks Verif.PropsFrame Verif.PropsSafe Verif.GridLevels.
Require Verif.Examples Verif.PropsReport Verif.GridProofs Verif.PropsLayout Verif.ItemProofs Verif.Radix Verif.PathProofs.
Import ListNotations.
Open Scope string_scope. Open Scope list_scope. Open Scope Z_scope.

Lemma dims_unique (a b : dim) m m' y x y' x' : a :: m ++ [y; x] = b :: m' ++ [y'; x'] -> a = b /\ m = m' /\ y = y' /\ x = x'.
Proof.
  intros H. injection H as -> H. split; [reflexivity|]. change [y; x] with ([y] ++ [x]) in H. change [y'; x'] with ([y'] ++ [x']) in H. rewrite !app_assoc in H.
  apply app_inj_tail in H as [H ->]. apply app_inj_tail in H as [-> ->]. auto.
Qed.

Section G.
Variables (E : env) (st : settings) (frame : Z) (given : list (list Z)) (n : Z) (bucket : option string) (root : string) (l : list udim) (d0 : dim) (mids : list dim) (dy dx : dim) (w : world).
Hypothesis Hs : sized st frame.
Hypothesis Hc : whole_calls frame given.
Hypothesis Hb : bytes_given given = n * frame.
Hypothesis Hn : n < 2 ^ 32.
Hypothesis Hl : st_dims st = Some l.
Hypothesis Hd : map dim_of l = d0 :: mids ++ [dy; dx].
Hypothesis Hst : store_at st bucket root.
Hypothesis Hroot : root <> "" /\ (bucket = None -> String.prefix "file:" root = false).
Hypothesis Hw : w_trace w = [].
Let v3 := st_version st =? 3.

Lemma events_belong strict :
  strict = false \/ match snd (session E st given w) with Ok (Some (rs, _)) => Forall (fun r => fst r = st_success) rs | Ok None => True | _ => False end ->
  forall e, In e (w_trace (fst (session E st given w))) -> about_contents e ->
    exists it, handles bucket e (where_is v3 root it) /\ belongs st d0 mids dy dx (lim n strict) it.
Proof.
  intros S e He Ha. destruct Hs as [_ _ (l' & e0 & m' & ey & ex & bpp & L & D & B & Fr & F & Sh & M)].
  rewrite L in Hl. injection Hl as ->. rewrite D in Hd. destruct (dims_unique _ _ _ _ _ _ _ _ Hd) as (-> & -> & -> & ->). subst frame.
  assert (P : Forall (okev GridProofs.okd (okp st d0 mids dy dx root n strict) GridProofs.okd (GridProofs.oko (okp st d0 mids dy dx root n strict))) (w_trace (fst (session E st given w)))).
  { apply (paths E st l d0 mids dy dx bpp bucket root n strict); auto.
    - intros Mu. destruct (M Mu) as (M1 & _ & _ & M2). split; [exact M1|exact M2].
    - apply store_place. exact Hst. }
  rewrite Forall_forall in P. specialize (P e He).
  pose proof (C48_partial E st given w bucket root Hst (proj2 Hroot) Hw) as Q. rewrite Forall_forall in Q. specialize (Q e He).
  destruct e; cbn in P, Q, Ha; try contradiction; destruct P as (it & P1 & P2); exists it; (split; [|exact P1]); cbn; destruct Q as [Q _]; split; auto.
Qed.
End G.

(** Whatever the machine refuses, in whatever state the calls leave the stream: a file or object the stream creates, writes or closes is a document of
    the store, the array document of a level, or a chunk or shard inside the extents of its level, in a row that starts at the latest after the last
    frame given. *)
Theorem C53_no_stray_files : forall E st frame calls n bucket root l d0 mids dy dx w,
  sized st frame -> whole_calls frame calls -> bytes_given calls = n * frame -> n < 2 ^ 32 ->
  st_dims st = Some l -> map dim_of l = d0 :: mids ++ [dy; dx] ->
  store_at st bucket root -> root <> "" /\ (bucket = None -> String.prefix "file:" root = false) -> w_trace w = [] ->
  forall e, In e (w_trace (fst (session E st calls w))) -> about_contents e ->
    exists it, handles bucket e (where_is (st_version st =? 3) root it) /\ belongs st d0 mids dy dx (fun _ => n + 1) it.
Proof. intros. eapply (events_belong E st frame calls n bucket root l d0 mids dy dx w) with (strict := false); eauto. Qed.

(** If every append call succeeded, or create failed: only rows with frames of the level, which is n/2^i frames for level i. *)
Theorem C53_no_empty_rows : forall E st frame calls n bucket root l d0 mids dy dx w,
  sized st frame -> whole_calls frame calls -> bytes_given calls = n * frame -> n < 2 ^ 32 ->
  st_dims st = Some l -> map dim_of l = d0 :: mids ++ [dy; dx] ->
  store_at st bucket root -> root <> "" /\ (bucket = None -> String.prefix "file:" root = false) -> w_trace w = [] ->
  match snd (session E st calls w) with Ok (Some (rs, _)) => Forall (fun r => fst r = st_success) rs | Ok None => True | _ => False end ->
  forall e, In e (w_trace (fst (session E st calls w))) -> about_contents e ->
    exists it, handles bucket e (where_is (st_version st =? 3) root it) /\ belongs st d0 mids dy dx (fun i => n / 2 ^ Z.of_nat i) it.
Proof. intros. eapply (events_belong E st frame calls n bucket root l d0 mids dy dx w) with (strict := true); eauto. Qed.

(** *** C09: what is in a store *)
Lemma no_open E tr evs p : file_of E tr p = None -> (forall e, In e evs -> ~ handles None e p) -> file_of E (tr ++ evs) p = None.
Proof.
  intros H0 H. rewrite SinkProofs.file_of_app, H0. clear H0. induction evs as [|e evs IH]; [reflexivity|]. cbn [fold_left].
  assert (X : file_step p None e = None).
  { destruct e; cbn; try reflexivity; try (destruct (under p0 p); reflexivity); destruct (String.eqb_spec p0 p) as [->|]; auto. exfalso. apply (H (EOpen p)); [left; reflexivity|split; reflexivity]. }
  rewrite X. apply IH. intros e' He'. apply H. right. exact He'.
Qed.
Lemma no_put E tr b k : (forall e, In e tr -> ~ handles (Some b) e k) -> object_of E tr b k = e_obj0 E b k.
Proof.
  intros H. unfold object_of. assert (H' : forall e, In e (rev tr) -> ~ handles (Some b) e k) by (intros e He; apply H; apply in_rev; exact He). clear H.
  induction (rev tr) as [|e l IH]; [reflexivity|]. cbn [object_rev]. specialize (IH (fun e' He' => H' e' (or_intror He'))).
  destruct e; auto; (destruct (String.eqb_spec b b0) as [->|]; [|exact IH]); (destruct (String.eqb_spec k k0) as [->|]; [|exact IH]); exfalso; refine (H' _ (or_introl eq_refl) _); split; reflexivity.
Qed.
Lemma handles_same bucket e p q : handles bucket e p -> handles bucket e q -> p = q.
Proof. destruct e; cbn; intuition congruence. Qed.
Lemma opt_dec (a b : option string) : {a = b} + {a <> b}.
Proof. decide equality; apply string_dec. Qed.
Lemma handles_dec bucket e p : {handles bucket e p} + {~ handles bucket e p}.
Proof.
  destruct e; cbn; try (right; tauto); match goal with |- {?A = ?B /\ ?C = ?D} + {_} => destruct (opt_dec A B); [destruct (string_dec C D)|]; [left; auto|right; tauto|right; tauto] end.
Qed.
Lemma handles_about bucket e p : handles bucket e p -> about_contents e.
Proof. destruct e; cbn; tauto. Qed.
Lemma given_bytes u groups : whole_frames u groups -> whole_calls (u_frame u) (calls groups) /\ bytes_given (calls groups) = zlen (List.concat groups) * u_frame u.
Proof.
  intros [H _]. unfold calls, bytes_given, whole_calls. induction H as [|g gs Hg _ [IH1 IH2]]; [split; [constructor|reflexivity]|].
  assert (X : zlen (List.concat g) = zlen g * u_frame u).
  { clear -Hg. unfold zlen. induction Hg as [|f l Hf _ IH]; [reflexivity|]. cbn [List.concat List.length]. rewrite app_length, !Nat2Z.inj_add, Nat2Z.inj_succ, IH. unfold zlen in Hf. lia. }
  cbn [map fold_right List.concat]. split; [constructor; [exists (List.length g); exact X|exact IH1]|]. rewrite IH2, X. unfold zlen. rewrite app_length. lia.
Qed.

(** Nothing else: on the file system every file of the store, on S3 every object that was not as it is before, is a document of the store, the array
    document of a level, or a chunk or shard inside the extents of its level in a row with frames; level i has n/2^i frames. *)
Theorem C09_nothing_else : forall u groups, fair_use u -> whole_frames u groups -> w_trace (u_world u) = [] ->
  forall p, match u_bk u with None => under (u_root u) p = true /\ store u groups p <> None | Some b => store u groups p <> e_obj0 (u_env u) b p end ->
  exists it, belongs (u_set u) (u_d0 u) (u_mids u) (u_dy u) (u_dx u) (fun i => zlen (List.concat groups) / 2 ^ Z.of_nat i) it /\
    p = where_is (st_version (u_set u) =? 3) (u_root u) it.
Proof.
  intros u groups U W T p H. destruct (fu_dims _ U) as (l & L & D). destruct (given_bytes u groups W) as [G1 G2].
  assert (ST : store_at (u_set u) (u_bk u) (u_root u)) by (split; [apply (fu_root _ U)|apply (fu_bk _ U)]).
  destruct (session_ok u U groups W) as (w0 & w' & R & _ & _ & _ & FR).
  assert (X : forall e, In e (w_trace (after u groups)) -> handles (u_bk u) e p -> exists it, belongs (u_set u) (u_d0 u) (u_mids u) (u_dy u) (u_dx u) (fun i => zlen (List.concat groups) / 2 ^ Z.of_nat i) it /\
    p = where_is (st_version (u_set u) =? 3) (u_root u) it).
  { intros e He Hp. destruct (C53_no_empty_rows (u_env u) (u_set u) (u_frame u) (calls groups) (zlen (List.concat groups)) (u_bk u) (u_root u) l (u_d0 u) (u_mids u) (u_dy u) (u_dx u) (u_world u)) with (e := e) as (it & I1 & I2); auto.
    - apply fair_sized; exact U.
    - exact (proj2 W).
    - apply (fu_path _ U).
    - rewrite R. cbn [snd]. apply Forall_forall. intros r Hr. apply in_map_iff in Hr as (c & <- & _). reflexivity.
    - eapply handles_about; exact Hp.
    - exists it. split; [exact I2|]. eapply handles_same; eauto. }
  assert (DEC : (exists e, In e (w_trace (after u groups)) /\ handles (u_bk u) e p) \/ forall e, In e (w_trace (after u groups)) -> ~ handles (u_bk u) e p).
  { assert (HD := fun e => handles_dec (u_bk u) e p).
    clear -HD. induction (w_trace (after u groups)) as [|e tr IH]; [right; intros e []|]. destruct (HD e) as [He|He]; [left; exists e; cbn; auto|].
    destruct IH as [(e' & A & B)|IH]; [left; exists e'; cbn; auto|right; intros e' [<-|A]; auto]. }
  destruct DEC as [(e & He & Hp)|DEC]; [exact (X e He Hp)|]. exfalso. unfold store, stored in H. unfold after in *. destruct (u_bk u) as [b|].
  - apply H. apply no_put. exact DEC.
  - destruct H as [HU H]. apply H. destruct (FR eq_refl) as (w1 & evs & F1 & V1). rewrite R in *. cbn [fst] in *. rewrite V1 in *. apply no_open; [apply F1; exact HU|]. intros e He. apply DEC. apply in_or_app. right. exact He.
Qed.

Lemma belongs_sensible st d0 mids dy dx n it : belongs st d0 mids dy dx n it -> sensible (st_version st =? 3) (List.length (mids ++ [dy; dx])) it.
Proof.
  unfold belongs. cbv zeta. destruct it; cbn; intros I1.
  - destruct I1 as (j & -> & _ & J1 & _ & J2). repeat split; auto; [lia|eapply in_bounds_nonneg; exact J2|]. apply Radix.in_bounds_length in J2. rewrite <- J2, !map_length. reflexivity.
  - destruct I1 as (j & -> & _). lia.
  - exact I1.
Qed.

(** Version 2, file system: the chunk files are those of the chunk grid in rows with frames, no more and no less; uncompressed ones have the
    declared size. *)
Theorem C09_chunk_files : forall u groups, fair_use u -> whole_frames u groups -> w_trace (u_world u) = [] -> st_version (u_set u) = 2 -> u_bk u = None ->
  forall i q cc, 0 <= q -> Forall (fun c => 0 <= c) cc -> List.length cc = List.length (u_mids u ++ [u_dy u; u_dx u]) ->
    let chunk := store u groups (path_of_coords (u_root u ++ "/" ++ dec (Z.of_nat i)) (q :: cc)) in
    (chunk <> None <-> is_level u i /\ q * lv_period u i < zlen (List.concat groups) / 2 ^ Z.of_nat i /\ in_bounds (map nch (lv_inner u i)) cc) /\
    (st_comp (u_set u) = None -> forall raw, chunk = Some raw -> zlen raw = prodZ (map d_chunk (lv_dims u i)) * u_bpp u).
Proof.
  intros u groups U W T V B i q cc Hq Hcc Hlen chunk.
  assert (I1 : chunk <> None -> is_level u i /\ q * lv_period u i < zlen (List.concat groups) / 2 ^ Z.of_nat i /\ in_bounds (map nch (lv_inner u i)) cc).
  { intros H. destruct (C09_nothing_else u groups U W T (path_of_coords (u_root u ++ "/" ++ dec (Z.of_nat i)) (q :: cc))) as (it & I1 & I2).
    - rewrite B. split; [|exact H]. apply under_iff. right. unfold path_of_coords. destruct (PathProofs.join_path_prefix (u_root u ++ "/" ++ dec (Z.of_nat i)) (map dec (q :: cc))) as (s & -> & _). rewrite !PathProofs.sapp_assoc. eexists. reflexivity.
    - rewrite V in *. cbn [Z.eqb Pos.eqb] in *.
      assert (Z0 : Piece (Z.of_nat i) q cc = it).
      { apply (PropsLayout.C38_distinct_paths false (u_root u) (List.length (u_mids u ++ [u_dy u; u_dx u]))); auto.
        - rewrite app_length. cbn. lia.
        - repeat split; auto; lia.
        - pose proof (belongs_sensible _ _ _ _ _ _ _ I1) as I3. rewrite V in I3. exact I3. }
      subst it. unfold belongs in I1. rewrite V in I1. cbn [Z.eqb Pos.eqb] in I1. destruct I1 as (j & J1 & J2 & J3 & J4 & J5). apply Nat2Z.inj in J1. subst j. split; [exact J2|]. split; [|exact J5].
      unfold row_frames in J4. rewrite Z.mul_1_r in J4. exact J4. }
  split; [split; [exact I1|]|].
  - intros (Hi & Hn & Hb). destruct (C07_C31_v2_chunks u groups U W V) as (G & [G0 Gn _ _] & H). destruct (H i Hi q cc Hq) as (raw & A & _); [rewrite Gn; exact Hn|exact Hb|]. unfold chunk. rewrite A. discriminate.
  - intros C raw Hr. destruct I1 as (Hi & Hn & Hb); [congruence|]. destruct (C09_chunk_size u groups U W V C i q cc Hi Hq Hn Hb) as (raw' & A & Z0). unfold chunk in Hr. congruence.
Qed.

(** *** With failures there can be a row without frames *)
Definition ev_key (b k : string) (e : event) : bool := match e with EPut b' k' _ => String.eqb b' b && String.eqb k' k | _ => false end.
Definition gx_d0 := mkdim "t" ty_time 0 1 2.
Definition gx_y := mkdim "y" ty_space 2 2 1.
Definition gx_x := mkdim "x" ty_space 2 1 1.
Lemma gx_dims v : exists l, st_dims (rx_set v) = Some l /\ map dim_of l = gx_d0 :: [] ++ [gx_y; gx_x].
Proof. eexists. split; reflexivity. Qed.
(** Two frames fill the only row of shards of a Zarr V3 store on S3. The server refuses one request (that for the array document); the second append
    call fails. Destroy succeeds, and uploads a second row of shards, which holds no frame. *)
Theorem C53_no_empty_rows_refuted : exists E st w w' rs e,
  sized st 4 /\ store_at st (Some "bucket") "out" /\ w_trace w = [] /\ (exists l, st_dims st = Some l /\ map dim_of l = gx_d0 :: [] ++ [gx_y; gx_x]) /\
  (forall k, e_s3 E k = false <-> k = 5%nat) /\
  session E st [[1; 2; 3; 4]; [5; 6; 7; 8]] w = (w', Ok (Some (rs, true))) /\ map fst rs = [st_success; st_internal_error] /\
  In e (w_trace w') /\ handles (Some "bucket") e "out/data/root/0/c1/0/0" /\
  ~ exists it, handles (Some "bucket") e (where_is (st_version st =? 3) "out" it) /\ belongs st gx_d0 [] gx_y gx_x (fun i => 2 / 2 ^ Z.of_nat i) it.
Proof.
  exists (PropsReport.rx_env 5), (rx_set 3), (mkworld [] 0 0 "").
  assert (X : match session (PropsReport.rx_env 5) (rx_set 3) [[1; 2; 3; 4]; [5; 6; 7; 8]] (mkworld [] 0 0 "") with
    | (w', Ok (Some (rs, true))) => map fst rs = [st_success; st_internal_error] /\ existsb (ev_key "bucket" "out/data/root/0/c1/0/0") (w_trace w') = true
    | _ => False end) by (vm_compute; split; reflexivity).
  destruct (session (PropsReport.rx_env 5) (rx_set 3) [[1; 2; 3; 4]; [5; 6; 7; 8]] (mkworld [] 0 0 "")) as [w' [[[rs [|]]|]| | |]]; try contradiction. destruct X as [X1 X2].
  apply existsb_exists in X2 as (e & He & X2). exists w', rs, e. split; [apply (small_sized 3); auto|].
  split. { split; [eexists; split; [reflexivity|exact (ValidProofs.trim_spec _)]|]. exists "bucket", "bucket". split; [reflexivity|]. split; [exact (ValidProofs.trim_spec "bucket")|reflexivity]. }
  split; [reflexivity|]. split; [apply gx_dims|]. split.
  { intros k. unfold PropsReport.rx_env. cbn [e_s3]. destruct (Nat.eqb_spec k 5); cbn [negb]; split; intros Y; auto; try discriminate Y; contradiction. }
  split; [reflexivity|]. split; [exact X1|]. split; [exact He|].
  assert (HK : handles (Some "bucket") e "out/data/root/0/c1/0/0").
  { destruct e; try discriminate X2. cbn in X2. apply andb_prop in X2 as [Y1 Y2]. apply String.eqb_eq in Y1. apply String.eqb_eq in Y2. subst. split; reflexivity. }
  split; [exact HK|]. intros (it & A & B). pose proof (handles_same _ _ _ _ HK A) as C.
  pose proof (belongs_sensible _ _ _ _ _ _ _ B) as D.
  assert (EQ : Piece 0 1 [0; 0] = it).
  { apply (PropsLayout.C38_distinct_paths true "out" 2); auto. repeat split; auto; try lia. repeat constructor; lia. }
  subst it. destruct B as (i & I1 & _ & _ & I2 & _). assert (i = 0%nat) by lia. subst i. vm_compute in I2. discriminate I2.
Qed.

(** *** The hypotheses can be met *)
Lemma fair_store u : fair_use u -> store_at (u_set u) (u_bk u) (u_root u).
Proof. intros U. split; [apply (fu_root _ U)|apply (fu_bk _ U)]. Qed.
(** a multiscale store with three levels; a disk that fills up *)
Example C53_hypotheses : forall v s3 (groups := ex_groups 1 19) (u := ex_comp v s3 true), v = 2 \/ v = 3 ->
  sized (u_set u) 35 /\ whole_calls 35 (calls groups) /\ bytes_given (calls groups) = 19 * 35 /\ store_at (u_set u) (u_bk u) "out" /\ w_trace (u_world u) = [] /\
  (exists l, st_dims (u_set u) = Some l /\ map dim_of l = u_d0 u :: u_mids u ++ [u_dy u; u_dx u]) /\
  match snd (session (u_env u) (u_set u) (calls groups) (u_world u)) with Ok (Some (rs, _)) => Forall (fun r => fst r = st_success) rs | _ => False end /\
  belongs (u_set u) (u_d0 u) (u_mids u) (u_dy u) (u_dx u) (fun i => 19 / 2 ^ Z.of_nat i) (Piece 2 0 [0; 0; 0]).
Proof.
  intros v s3 groups u V. assert (U : fair_use u) by (apply ex_comp_fair; auto). assert (W : whole_frames u groups) by (apply ex_frames_whole; lia). destruct (given_bytes u groups W) as [G1 G2].
  split; [exact (fair_sized u U)|]. split; [exact G1|]. split; [exact G2|]. split; [exact (fair_store u U)|]. split; [reflexivity|]. split; [exact (fu_dims _ U)|]. split.
  - destruct (session_ok u U groups W) as (w0 & w' & R & _). rewrite R. cbn [snd]. apply Forall_forall. intros r Hr. apply in_map_iff in Hr as (c & <- & _). reflexivity.
  - exists 2%nat. split; [reflexivity|]. split; [right; split; [reflexivity|]; exists 2%nat; split; [exact ex_last_level|lia]|]. split; [lia|]. split; [destruct V as [-> | ->]; vm_compute; reflexivity|].
    destruct V as [-> | ->]; vm_compute; repeat split; auto; discriminate.
Qed.
Example C09_hypotheses : let u := ex_comp 2 false true in let groups := ex_groups 1 19 in
  fair_use u /\ whole_frames u groups /\ w_trace (u_world u) = [] /\ st_version (u_set u) = 2 /\ u_bk u = None /\ is_level u 2 /\
  0 * lv_period u 2 < zlen (List.concat groups) / 2 ^ Z.of_nat 2 /\ ~ 9 * lv_period u 2 < zlen (List.concat groups) / 2 ^ Z.of_nat 2 /\
  in_bounds (map nch (lv_inner u 2)) [0; 0; 0] /\ ~ in_bounds (map nch (lv_inner u 2)) [0; 0; 9].
Proof.
  split; [apply ex_comp_fair; auto|]. split; [apply ex_frames_whole; lia|]. split; [reflexivity|]. split; [reflexivity|]. split; [reflexivity|].
  split; [right; split; [reflexivity|]; exists 2%nat; split; [exact ex_last_level|lia]|]. split; [vm_compute; reflexivity|]. split; [vm_compute; discriminate|].
  split; [vm_compute; repeat split; auto; discriminate|]. vm_compute. intros (_ & _ & (_ & H) & _). discriminate.
Qed.

Print Assumptions C53_no_stray_files.
Print Assumptions C53_no_empty_rows.
Print Assumptions C53_no_empty_rows_refuted.
Print Assumptions C09_nothing_else.
Print Assumptions C09_chunk_files.
