(** One array writer without failures: what is stored after any number of frames. *)
Require Import ZArith List Bool String Ascii Lia Zify.
Require Import Verif.Base Verif.Spec Verif.Dim Verif.Json Verif.Radix Verif.Limits Verif.DimProofs Verif.PathProofs
  Verif.World Verif.Writer Verif.TileProofs Verif.BufProofs Verif.SinkProofs Verif.CreateProofs Verif.FlushProofs Verif.CrashProofs Verif.LayoutProofs
  Verif.ShardProofs Verif.ShardFile Verif.ShardGrid.
Import ListNotations.
Open Scope string_scope.
Open Scope list_scope.
Open Scope Z_scope.

Lemma nth_nils {A} (l : list A) i : nth i (map (fun _ => @nil Z) l) [] = [].
Proof. revert i; induction l; intros [|i]; simpl; auto. Qed.

Section W.
Variable E : env.
Hypothesis HE : calm E.
Variables (cfg : config) (bpp : Z) (d0 : dim) (mids : list dim) (dy dx : dim).
Let ds := d0 :: mids ++ [dy; dx].
Hypothesis Hds : c_dims cfg = ds.
Hypothesis Hbpp : bytes_of_type (c_dtype cfg) = Ok bpp.
Hypothesis Hf : fits bpp d0 mids dy dx.
Hypothesis Hep : fits_epoch bpp d0 mids dy dx.
Let A := map d_array mids.
Let P := d_chunk d0 * prodZ A.
Let fb := d_array dy * d_array dx * bpp.
Let Ns := map nch (mids ++ [dy; dx]).
Let nbuf := prodZ (map nch mids) * (nch dy * nch dx).
Let B := prodZ (map d_chunk ds) * bpp.
Variables (enc : list Z -> list Z) (mxl : Z).
Hypothesis Henc : comp_ok E (c_comp cfg) bpp B enc mxl.
Hypothesis Hmxl : mxl < 2 ^ 64.
Let level := c_level cfg. Let root := c_root cfg. Let bk := c_bucket cfg. Let m := List.length mids.
Hypothesis Hlevel : 0 <= level.
Hypothesis Hroot : root <> "".
Hypothesis Hplain : bk = None -> String.prefix "file:" root = false.
Hypothesis Hbucket : bk <> Some "".

Let schunk := spec_chunk bpp d0 mids dy dx.
Let schunks := spec_chunks bpp d0 mids dy dx.

Lemma consts : 0 < P < 2 ^ 63 /\ 0 < nbuf < 2 ^ 31 /\ 0 < B < 2 ^ 63 /\ 0 < fb /\ P * fb < 2 ^ 64 /\ 0 < prodZ A /\ nbuf = prodZ Ns.
Proof.
  destruct (buf_pos bpp d0 mids dy dx Hf) as (P1 & P2 & P3 & P4 & P5 & P6 & PB & P7 & P8 & P9 & P10 & P11).
  destruct (fr_ok _ _ _ _ _ Hf) as (HH & HW & _).
  split; [exact P11|]. split; [exact P7|]. split; [exact P8|].
  split; [unfold fb; apply Z.mul_pos_pos; [apply Z.mul_pos_pos; auto|lia]|].
  split; [exact Hep|]. split; [exact P6|].
  unfold nbuf, Ns. rewrite <- nch_prod_split. auto.
Qed.
Lemma Ns_pos : allpos Ns.
Proof. apply inner_allpos_nch. apply (fit_inner _ _ _ _ _ Hf). Qed.

Lemma fresh_bufs F q : 0 <= q -> zlen F <= q * P -> zrep (zrep 0 B) nbuf = schunks F q.
Proof.
  intros Hq HF. destruct consts as (CP & CN & CB & _).
  apply (bufs_eq_spec bpp d0 mids dy dx Hf).
  - apply zlen_zrep. fold nbuf. lia.
  - unfold zrep at 1. apply Forall_forall. intros b Hb. apply repeat_spec in Hb. subst b. apply zlen_zrep. exact (Z.lt_le_incl _ _ (proj1 CB)).
  - intros c o Hc Ho. rewrite (spec_byte_fresh bpp d0 mids dy dx Hf) by auto.
    fold nbuf in Hc.
    assert (X : forall n k (x d : list Z), (k < n)%nat -> nth k (repeat x n) d = x).
    { clear. induction n; simpl; intros k x d Hk; [lia|]. destruct k; auto. apply IHn. lia. }
    unfold zrep at 1. rewrite X by (clear - Hc; lia). apply getb_zrep0.
Qed.

Lemma make_buffers_ok a F q : a_cfg a = cfg -> 0 <= q -> zlen F <= q * P ->
  make_buffers a = Ok (set_bufs a (schunks F q)).
Proof.
  intros Hc Hq HF. unfold make_buffers. rewrite Hc, Hds. unfold ds.
  rewrite (number_of_chunks_exact _ _ _ _ _ Hf), (bytes_per_chunk_exact _ _ _ _ _ _ Hf Hbpp).
  fold ds. fold B. fold nbuf. rewrite <- (fresh_bufs F q) by auto. auto.
Qed.

Lemma frames_before_flush_exact k : 0 <= k -> k * prodZ A < 2 ^ 64 -> frames_before_flush ds k = k * prodZ A.
Proof.
  intros. unfold frames_before_flush, ds. rewrite mid_dims_eq.
  apply (fold_mul_exact u64 (2 ^ 64)); auto.
  - intros x Hx. apply u64_id; auto.
  - apply inner_allpos_arr, (inner_mids _ _ _ _ _ Hf).
Qed.

Lemma should_flush_exact a : a_cfg a = cfg -> should_flush a = Ok (a_frames a mod P =? 0).
Proof.
  intros Hc. destruct consts as (CP & _). unfold should_flush. rewrite Hc, Hds.
  assert (Ef : final_dim ds = d0) by apply final_dim_eq. rewrite Ef.
  pose proof (fit_c0 _ _ _ _ _ Hf). cbv zeta.
  rewrite frames_before_flush_exact by (fold P; lia). fold P.
  rewrite (proj2 (Z.ltb_lt 0 P)) by lia. auto.
Qed.

(** buffers after the frames [F], epoch [q]: absent before the first frame *)
Definition bufs_ok (F : list (list Z)) (q : Z) (bufs : list (list Z)) : Prop :=
  (bufs = [] /\ F = []) \/ bufs = schunks F q.

Definition after_frame (a : writer) (bufs : list (list Z)) (nf fl : Z) : writer :=
  set_frames (set_toflush (set_bufs a bufs) fl) nf.

Lemma schunks_nonempty F q : schunks F q <> [].
Proof.
  intros H. destruct consts as (_ & CN & _). pose proof (spec_chunks_len bpp d0 mids dy dx Hf F q) as L.
  fold schunks in L. rewrite H in L. change (zlen []) with 0 in L. fold nbuf in L. lia.
Qed.
Lemma schunks_B F q : Forall (fun b => zlen b = B) (schunks F q).
Proof.
  unfold schunks, spec_chunks. apply Forall_forall. intros b Hb. apply in_map_iff in Hb as (c & <- & _).
  apply spec_chunk_len; auto.
Qed.

Lemma write_frame_prefix a w F data :
  a_cfg a = cfg -> a_frames a = zlen F -> zlen F + 1 < 2 ^ 32 -> bufs_ok F (zlen F / P) (a_bufs a) ->
  a_toflush a = zlen F mod P * fb -> zlen data = fb ->
  write_frame E data (a, w)
  = ((if (zlen F + 1) mod P =? 0 then flush E else ret tt) ;;; ret fb)
      (after_frame a (schunks (F ++ [data]) (zlen F / P)) (zlen F + 1) ((zlen F mod P + 1) * fb), w).
Proof.
  intros Hc Hn Hlt Hb Ht Hd. destruct consts as (CP & CN & CB & CF & CE & CA & _). pose proof (zlen_nonneg F) as HF0.
  assert (Hq : 0 <= zlen F / P) by (apply Z.div_pos; lia).
  unfold write_frame. rewrite (bind_ok getA _ (a, w) (a, w) a) by reflexivity.
  rewrite Hc, Hds. unfold ds. rewrite (bytes_of_frame_exact _ _ _ _ _ _ Hf Hbpp). fold ds. fold fb.
  rewrite (bind_ok (liftM (Ok fb)) _ (a, w) (a, w) fb) by reflexivity.
  rewrite Hd, Z.eqb_refl. cbn [negb].
  assert (Hmk : (match a_bufs a with [] => a' <- liftM (make_buffers a) ;; modA (fun _ => a') | _ => ret tt end) (a, w)
                = ((set_bufs a (schunks F (zlen F / P)), w), Ok tt)).
  { destruct Hb as [[Hb0 Hb1]|Hb1].
    - rewrite Hb0. subst F. change (zlen []) with 0 in *. rewrite (make_buffers_ok a [] (0 / P)); auto.
    - rewrite Hb1. destruct (schunks F (zlen F / P)) eqn:Es; [exfalso; eapply schunks_nonempty; eauto|].
      rewrite <- Hb1, set_bufs_id. reflexivity. }
  erewrite bind_ok by exact Hmk.
  rewrite (bind_ok getA _ (set_bufs a (schunks F (zlen F / P)), w) (set_bufs a (schunks F (zlen F / P)), w) (set_bufs a (schunks F (zlen F / P)))) by reflexivity.
  destruct (write_frame_to_chunks_exact bpp (c_dtype cfg) d0 mids dy dx Hf Hbpp (set_bufs a (schunks F (zlen F / P))) data)
    as (bufs' & R1 & R2 & R3 & R4); cbn [a_cfg set_bufs a_frames a_bufs].
  { rewrite Hc. exact Hds. }
  { rewrite Hc. reflexivity. }
  { lia. }
  { apply spec_chunks_len; auto. }
  { apply schunks_B. }
  { exact Hd. }
  rewrite R1. rewrite (bind_ok (liftM (Ok (bufs', d_array dy * d_array dx * bpp))) _ (set_bufs a (schunks F (zlen F / P)), w) (set_bufs a (schunks F (zlen F / P)), w) (bufs', d_array dy * d_array dx * bpp)) by reflexivity.
  assert (Eb : bufs' = schunks (F ++ [data]) (zlen F / P)).
  { apply (bufs_eq_spec bpp d0 mids dy dx Hf); auto.
    intros c o Hcc Ho. rewrite R4 by auto. cbn [a_bufs set_bufs a_frames]. unfold schunks.
    rewrite (nth_spec_chunks bpp d0 mids dy dx) by auto.
    rewrite (getb_spec_chunk bpp d0 mids dy dx) by auto. rewrite Hn.
    apply (frame_byte_spec bpp d0 mids dy dx Hf); auto. }
  rewrite Eb. fold fb.
  rewrite (bind_ok (modA _) _ _ (set_bufs a (schunks (F ++ [data]) (zlen F / P)), w) tt) by reflexivity.
  rewrite Z.eqb_refl. cbn [expectM].
  rewrite (bind_ok (ret tt) _ _ (set_bufs a (schunks (F ++ [data]) (zlen F / P)), w) tt) by reflexivity.
  assert (Hm0 : 0 <= zlen F mod P < P) by (apply Z.mod_pos_bound; lia).
  assert (Hfl : (zlen F mod P + 1) * fb < 2 ^ 64).
  { eapply Z.le_lt_trans; [|exact CE]. apply Z.mul_le_mono_nonneg_r; lia. }
  assert (Hfl0 : 0 <= (zlen F mod P + 1) * fb) by (apply Z.mul_nonneg_nonneg; lia).
  rewrite (bind_ok (modA _) _ _ (after_frame a (schunks (F ++ [data]) (zlen F / P)) (zlen F + 1) ((zlen F mod P + 1) * fb), w) tt).
  2:{ unfold modA, after_frame. cbn [fst snd]. f_equal. f_equal. cbn [set_bufs a_toflush a_frames set_toflush].
      rewrite Ht, Hn. rewrite u32_id by lia. replace (zlen F mod P * fb + fb) with ((zlen F mod P + 1) * fb) by lia.
      rewrite u64_id by lia. reflexivity. }
  set (a1 := after_frame _ _ _ _).
  rewrite (bind_ok getA _ (a1, w) (a1, w) a1) by reflexivity.
  rewrite should_flush_exact by exact Hc. cbn [a_frames a1 after_frame set_frames].
  rewrite (bind_ok (liftM (Ok ((zlen F + 1) mod P =? 0))) _ (a1, w) (a1, w) ((zlen F + 1) mod P =? 0)) by reflexivity.
  reflexivity.
Qed.

(** ** locations *)
Definition base (v3 : bool) (q : Z) : string := join_path root (data_comps v3 level q).
Definition mloc (v3 : bool) : loc := mkloc bk (join_path root (meta_comps v3 level)).
Definition D (v3 : bool) (t : string) (k : Z) : list Z := doc v3 ds t (c_comp cfg) (ceil_div k (prodZ A)).

(** what must hold of the world for this writer to work *)
Definition ready (v3 : bool) (w : world) : Prop :=
  (bk = None -> free_dirs v3 root m E w) /\ (bk <> None -> (0 < w_conns w)%nat).
Lemma ready_ext v3 lev w w' : 0 <= lev -> extends (level_ev v3 root m bk lev) w w' -> ready v3 w -> ready v3 w'.
Proof.
  intros Hl Hx [H1 H2]. split.
  - intros Hb. eapply free_dirs_ext; eauto.
  - intros Hb. destruct Hx as (? & _ & _ & -> & _). auto.
Qed.

Lemma where_meta v3 w : ready v3 w -> where_ok bk (join_path root (meta_comps v3 level)) w.
Proof.
  intros [H1 H2]. split.
  - unfold meta_comps. destruct v3; apply root_join_nonempty; auto.
  - destruct bk as [b|] eqn:Eb.
    + split; [intros ->; congruence|]. apply H2. discriminate.
    + split; [unfold meta_comps; destruct v3; apply strip_join; auto|].
      unfold meta_comps. destruct v3.
      * exists (join_path root ["meta"; "root"]), (dec level ++ ".array.json")%string. split; [apply root_join_nonempty; auto|]. split; [reflexivity|].
        apply no_slash_app; ns.
      * exists (join_path root [dec level]), ".zarray". split; [apply root_join_nonempty; auto|]. split; [reflexivity|]. ns.
Qed.

(** the locations of the data files of epoch [q] (chunk or shard grid [ns]) *)
Definition qlocs (v3 : bool) (ns : list Z) (q : Z) : list loc := map (mkloc bk) (grid_paths (base v3 q) ns).
Lemma qlocs_nodup v3 ns q : allpos ns -> NoDup (qlocs v3 ns q).
Proof.
  intros H. unfold qlocs. apply FinFun.Injective_map_NoDup; [|apply grid_paths_nodup; auto]. intros x y. apply mkloc_inj.
Qed.
Lemma qlocs_length v3 ns q : allpos ns -> List.length (qlocs v3 ns q) = Z.to_nat (prodZ ns).
Proof.
  intros H. unfold qlocs, grid_paths. rewrite !map_length. pose proof (grid_length ns H). unfold zlen in H0. lia.
Qed.
Lemma qlocs_own v3 ns q l : allpos ns -> List.length ns = (m + 2)%nat -> 0 <= q -> In l (qlocs v3 ns q) ->
  exists p, l = mkloc bk p /\ own v3 root m level p.
Proof.
  intros Hp Hl Hq H. unfold qlocs in H. apply in_map_iff in H as (p & <- & H). exists p. split; [auto|].
  unfold grid_paths in H. apply in_map_iff in H as (cc & <- & H). apply in_grid in H; auto.
  unfold path_of_coords, base. rewrite <- join_path_app. apply own_data; auto.
  - eapply in_bounds_nonneg; eauto.
  - apply in_bounds_length in H. lia.
Qed.
Lemma qlocs_nth v3 ns q c : 0 <= c < prodZ ns ->
  nth (Z.to_nat c) (qlocs v3 ns q) (LF "") = mkloc bk (path_of_coords (base v3 q) (unravel ns c)).
Proof.
  intros H. unfold qlocs. rewrite nth_indep with (d' := mkloc bk "").
  - rewrite map_nth. f_equal. apply nth_grid_paths; auto.
  - rewrite map_length. unfold grid_paths, grid. rewrite !map_length, zseq_length. lia.
Qed.
Lemma qlocs_disjoint v3 ns q ns' q' l : allpos ns -> allpos ns' -> 0 <= q -> 0 <= q' ->
  In l (qlocs v3 ns q) -> In l (qlocs v3 ns' q') -> q = q'.
Proof.
  unfold qlocs, grid_paths. intros Hp Hp' Hq Hq' H1 H2.
  apply in_map_iff in H1 as (p1 & <- & H1). apply in_map_iff in H2 as (p2 & X & H2). apply mkloc_inj in X. subst p2.
  apply in_map_iff in H1 as (c1 & <- & H1). apply in_map_iff in H2 as (c2 & X & H2).
  apply in_grid in H1; auto. apply in_grid in H2; auto.
  unfold path_of_coords, base in X. rewrite <- !join_path_app in X. apply data_inj in X; auto.
  - symmetry; tauto.
  - eapply in_bounds_nonneg; eauto.
  - eapply in_bounds_nonneg; eauto.
Qed.
Lemma mloc_not_q v3 ns q : allpos ns -> (1 <= List.length ns)%nat -> 0 <= q -> ~ In (mloc v3) (qlocs v3 ns q).
Proof.
  intros Hp Hl Hq H. unfold qlocs, grid_paths in H. apply in_map_iff in H as (p & X & H). apply mkloc_inj in X. subst p.
  apply in_map_iff in H as (cc & X & H). apply in_grid in H; auto.
  unfold path_of_coords, base in X. rewrite <- join_path_app in X. revert X. apply data_not_meta; auto.
  apply in_bounds_length in H. lia.
Qed.
Lemma mloc_own v3 : exists p, mloc v3 = mkloc bk p /\ own v3 root m level p.
Proof. eexists. split; [reflexivity|apply own_meta]. Qed.

(** events of one flush *)
Definition qev (v3 : bool) (ns : list Z) (q : Z) (e : event) : Prop :=
  is_mkdir e \/ in_locs (mloc v3 :: qlocs v3 ns q) e.
Lemma qev_level v3 ns q e : allpos ns -> List.length ns = (m + 2)%nat -> 0 <= q -> qev v3 ns q e -> level_ev v3 root m bk level e.
Proof.
  intros Hp Hl Hq [H|(l & [<-|H1] & H2)]; [left; auto| |].
  - right. destruct (mloc_own v3) as (p & X & Hp'). rewrite X in H2. eauto.
  - right. destruct (qlocs_own _ _ _ _ Hp Hl Hq H1) as (p & X & Hp'). rewrite X in H2. eauto.
Qed.

Definition dev (v3 : bool) (ns : list Z) (q : Z) (e : event) : Prop :=
  is_mkdir e \/ in_locs (qlocs v3 ns q) e.
Lemma dev_qev v3 ns q e : dev v3 ns q e -> qev v3 ns q e.
Proof. intros [H|H]; [left; auto|right; eapply in_locs_incl; [|exact H]; intros; right; auto]. Qed.
Lemma dev_not_meta v3 ns q e : allpos ns -> (1 <= List.length ns)%nat -> 0 <= q -> dev v3 ns q e -> ~ affects (mloc v3) e.
Proof. intros Hp Hl Hq [H|H]; [apply mkdir_affects; auto|]. eapply in_locs_affects; eauto. apply mloc_not_q; auto. Qed.

(** ** creating the sinks of one flush *)
Lemma make_data_sinks_ok a w v3 np :
  a_cfg a = cfg -> a_v3 a = v3 -> 0 <= a_append a -> ready v3 w ->
  Forall (fun d => parts_along a d = Ok (np d) /\ 0 < np d) (mids ++ [dy; dx]) ->
  exists ss w', make_data_sinks E (a, w) = ((set_sinks a ss, w'), Ok true)
    /\ extends (dev v3 (map np (mids ++ [dy; dx])) (a_append a)) w w'
    /\ sinks_hold E w' ss (qlocs v3 (map np (mids ++ [dy; dx])) (a_append a))
                  (map (fun _ => []) (qlocs v3 (map np (mids ++ [dy; dx])) (a_append a))).
Proof.
  intros Hc Hv Hq [Hr1 Hr2] Hnp. set (ns := map np (mids ++ [dy; dx])).
  assert (Hdr : data_root a = base v3 (a_append a)).
  { rewrite data_root_join, Hc, Hv. reflexivity. }
  assert (Hbne : base v3 (a_append a) <> "").
  { unfold base, data_comps. destruct v3; apply root_join_nonempty; auto. }
  unfold make_data_sinks. rewrite (bind_ok getA _ (a, w) (a, w) a) by reflexivity.
  rewrite Hc, Hds, Hdr. unfold qlocs. fold bk. destruct bk as [b|] eqn:Eb.
  - destruct (make_data_sinks_s3_ok E (calm_fs _ HE) (calm_stat _ HE) (base v3 (a_append a)) d0 mids dy dx (parts_along a) np Hnp Hbne b w) as (w' & ss & R1 & R2 & R3).
    { intros ->. congruence. }
    { apply Hr2. discriminate. }
    exists ss, w'. split; [|split].
    + unfold onWd at 1. unfold bind at 1. cbn [snd fst]. fold ds in R1. rewrite R1. reflexivity.
    + eapply extends_impl; [|exact R2]. intros e He. left; auto.
    + rewrite map_map. fold ns in R3. exact R3.
  - destruct (make_data_sinks_fs_ok E (calm_fs _ HE) (calm_stat _ HE) (base v3 (a_append a)) d0 mids dy dx (parts_along a) np Hnp Hbne w) as (w' & ss & R1 & R2 & R3).
    { unfold base, data_comps. destruct v3; apply strip_join; auto. }
    { apply free_dirs_dirs_free with (m := m); auto. }
    exists ss, w'. split; [|split].
    + unfold onWd at 1. unfold bind at 1. cbn [snd fst]. fold ds in R1. rewrite R1. reflexivity.
    + eapply extends_impl; [|exact R2]. intros e [He|He]; [left; auto|]. right.
      unfold qlocs. rewrite Eb. exact He.
    + rewrite map_map. fold ns in R3. exact R3.
Qed.

Definition cloc (v3 : bool) (q c : Z) : loc := mkloc bk (path_of_coords (base v3 q) (unravel Ns c)).

Lemma nth_map_enc F q c : 0 <= c < nbuf -> nth (Z.to_nat c) (map enc (schunks F q)) [] = enc (schunk F q c).
Proof.
  intros Hc. rewrite nth_indep with (d' := enc []).
  - rewrite map_nth. f_equal. apply (nth_spec_chunks bpp d0 mids dy dx); auto.
  - rewrite map_length. pose proof (spec_chunks_len bpp d0 mids dy dx Hf F q) as L. unfold zlen in L.
    unfold schunks. fold nbuf in L. clear - L Hc. lia.
Qed.
Lemma schunk_len F q c : zlen (schunk F q c) = B.
Proof. apply spec_chunk_len; auto. Qed.
Lemma enc_len F q c : 0 < zlen (enc (schunk F q c)) <= mxl.
Proof. eapply comp_len; eauto; [destruct consts as (_ & _ & CB & _); apply CB|apply schunk_len]. Qed.
Lemma Ns_length : List.length Ns = (m + 2)%nat.
Proof. unfold Ns, m. rewrite map_length, app_length. reflexivity. Qed.

(** ** version 2 *)
Section V2.
Variable t : string.
Hypothesis Ht : dtype_v2 (c_dtype cfg) = Some t.
Hypothesis Hdoc : bk <> None -> forall k, 0 <= k < 2 ^ 32 -> zlen (D false t k) < part_size.

Definition flushed (a : writer) (q : Z) (s : sink) (bufs : list (list Z)) : writer :=
  set_toflush (set_bufs (set_meta (set_append (set_sinks a []) (q + 1)) (Some s)) bufs) 0.

Lemma flush_v2_ok a w F q old :
  a_cfg a = cfg -> a_v3 a = false -> a_frames a = zlen F -> zlen F < 2 ^ 32 -> a_append a = q -> 0 <= q < 2 ^ 32 - 1 ->
  a_sinks a = [] -> a_bufs a = schunks F q -> a_toflush a <> 0 -> zlen F <= (q + 1) * P ->
  ready false w -> meta_state E w (a_meta a) (mloc false) (option_map (D false t) old) ->
  (forall k, old = Some k -> 0 <= k <= zlen F) ->
  exists s w', flush E (a, w) = ((flushed a q s (schunks F (q + 1)), w'), Ok tt)
    /\ extends (qev false Ns q) w w'
    /\ (forall c, 0 <= c < nbuf -> content E (w_trace w') (cloc false q c) = Some (enc (schunk F q c)))
    /\ meta_state E w' (Some s) (mloc false) (Some (D false t (zlen F)))
    /\ (exists w1, extends (dev false Ns q) w w1 /\ (forall c, 0 <= c < nbuf -> closed (w_trace w1) (cloc false q c))
                   /\ extends (mev (mloc false) (D false t (zlen F))) w1 w').
Proof.
  intros Hc Hv Hn Hn32 Hap Hq Hsk Hb Hfl HFq Hrdy Hmeta Hold.
  destruct consts as (CP & CN & CB & CF & CE & CA & CNs). pose proof Ns_pos as HNs. pose proof (zlen_nonneg F) as HF0.
  unfold flush. rewrite (bind_ok getA _ (a, w) (a, w) a) by reflexivity.
  rewrite (proj2 (Z.eqb_neq _ _) Hfl).
  (* compression *)
  set (a1 := set_bufs a (map enc (schunks F q))).
  assert (H1 : compress_buffers E (a, w) = ((a1, w), Ok tt)).
  { unfold a1. rewrite <- Hb. apply (compress_buffers_ok E a w bpp B enc mxl).
    - rewrite Hc. exact Henc.
    - rewrite Hc. exact Hbpp.
    - rewrite Hb. apply schunks_B. }
  erewrite bind_ok by exact H1.
  (* sinks *)
  assert (Hnp : Forall (fun d => parts_along a1 d = Ok (nch d) /\ 0 < nch d) (mids ++ [dy; dx])).
  { eapply Forall_impl; [|apply (fit_inner _ _ _ _ _ Hf)]. intros d Hd. unfold parts_along.
    change (a_v3 a1) with (a_v3 a). rewrite Hv. split; [apply chunks_along_ok|apply nch_pos]; auto. }
  destruct (make_data_sinks_ok a1 w false nch Hc Hv) as (ss & w1 & R1 & R2 & R3); auto.
  { change (a_append a1) with (a_append a). rewrite Hap. lia. }
  change (a_append a1) with (a_append a) in R2, R3. rewrite Hap in R2, R3. fold Ns in R2, R3.
  set (ls := qlocs false Ns q) in *.
  assert (Hls : NoDup ls) by (apply qlocs_nodup; auto).
  assert (Hlen : List.length ls = Z.to_nat nbuf) by (unfold ls; rewrite qlocs_length by auto; rewrite CNs; auto).
  assert (Hbl : List.length (map enc (schunks F q)) = Z.to_nat nbuf).
  { rewrite map_length. pose proof (spec_chunks_len bpp d0 mids dy dx Hf F q) as L. unfold zlen in L. unfold schunks. fold nbuf in L. clear - L. lia. }
  assert (Hcs0 : forall i, nth i (map (fun _ : loc => @nil Z) ls) [] = []).
  { apply nth_nils. }
  assert (Hcnt : forall i, (i < List.length ls)%nat -> nth i (map enc (schunks F q)) [] = enc (schunk F q (Z.of_nat i))).
  { intros i Hi. rewrite <- (Nat2Z.id i) at 1. apply nth_map_enc. rewrite Hlen in Hi. clear - Hi CN. lia. }
  destruct (v2_jobs_ok E HE ls (map enc (schunks F q)) Hls (seq 0 (List.length ss)) (set_sinks a1 ss) w1 (map (fun _ => []) ls))
    as (ss2 & w2 & cs & S1 & S2 & S3 & S4 & _).
  { apply seq_NoDup. }
  { reflexivity. }
  { destruct R3 as (L1 & L2 & _). intros i Hi. apply in_seq in Hi. assert (Hi' : (i < List.length ls)%nat) by (rewrite <- L1; lia).
    split; [exact Hi'|]. split; [apply Hcs0|]. rewrite Hcnt by auto. pose proof (enc_len F q (Z.of_nat i)). lia. }
  { exact R3. }
  assert (Hss : List.length ss = List.length ls) by apply R3.
  assert (H2 : flush_impl E (a1, w) = ((set_sinks a1 ss2, w2), Ok true)).
  { unfold flush_impl. rewrite (bind_ok getA _ (a1, w) (a1, w) a1) by reflexivity. change (a_v3 a1) with (a_v3 a). rewrite Hv.
    unfold flush_impl_v2. rewrite (bind_ok getA _ (a1, w) (a1, w) a1) by reflexivity. change (a_sinks a1) with (a_sinks a). rewrite Hsk.
    cbn [expectM]. rewrite (bind_ok (ret tt) _ (a1, w) (a1, w) tt) by reflexivity.
    erewrite bind_ok by exact R1. cbv beta iota.
    rewrite (bind_ok getA _ (set_sinks a1 ss, w1) (set_sinks a1 ss, w1) (set_sinks a1 ss)) by reflexivity.
    change (a_sinks (set_sinks a1 ss)) with ss. change (a_bufs (set_sinks a1 ss)) with (map enc (schunks F q)).
    rewrite (proj2 (Nat.eqb_eq _ _)) by (rewrite Hss, Hlen, Hbl; reflexivity). cbn [expectM].
    rewrite (bind_ok (ret tt) _ (set_sinks a1 ss, w1) (set_sinks a1 ss, w1) tt) by reflexivity.
    erewrite bind_ok by exact S1. reflexivity. }
  erewrite bind_ok by exact H2. cbn [expectM].
  rewrite (bind_ok (ret tt) _ (set_sinks a1 ss2, w2) (set_sinks a1 ss2, w2) tt) by reflexivity.
  rewrite (bind_ok getA _ (set_sinks a1 ss2, w2) (set_sinks a1 ss2, w2) (set_sinks a1 ss2)) by reflexivity.
  assert (H3 : should_rollover (set_sinks a1 ss2) = Ok true).
  { unfold should_rollover. change (a_v3 (set_sinks a1 ss2)) with (a_v3 a). rewrite Hv. auto. }
  rewrite H3. rewrite (bind_ok (liftM (Ok true)) _ (set_sinks a1 ss2, w2) (set_sinks a1 ss2, w2) true) by reflexivity.
  (* rollover *)
  assert (Hcs : forall i, (i < List.length ls)%nat -> nth i cs [] = enc (schunk F q (Z.of_nat i))).
  { intros i Hi. rewrite S4, Hcnt by (auto; apply in_seq; lia). auto. }
  destruct (close_sinks_ok E HE (set_sinks a1 ss2) w2 ls cs S3 Hls) as (w3 & U1 & U2 & U3 & U4).
  { intros i Hi. rewrite Hcs by auto. pose proof (enc_len F q (Z.of_nat i)) as X. split; [lia|]. left.
    intros Y. rewrite Y in X. change (zlen []) with 0 in X. lia. }
  set (a4 := set_append (set_sinks a1 []) (q + 1)).
  assert (H4 : rollover E (set_sinks a1 ss2, w2) = ((a4, w3), Ok tt)).
  { unfold rollover. erewrite bind_ok by exact U1. unfold modA. cbn [fst snd]. unfold a4. f_equal. f_equal.
    cbn [set_sinks a_append]. change (a_append a1) with (a_append a). rewrite Hap. rewrite u32_id by lia. reflexivity. }
  erewrite bind_ok by exact H4.
  rewrite (bind_ok getA _ (a4, w3) (a4, w3) a4) by reflexivity. cbn [orb].
  (* metadata *)
  assert (Hm2 : (1 <= List.length Ns)%nat) by (rewrite Ns_length; lia).
  assert (Hx : extends (dev false Ns q) w w3).
  { eapply extends_trans; [exact R2|].
    eapply extends_trans; [eapply extends_impl; [|exact S2]; intros; right; auto|eapply extends_impl; [|exact U2]; intros; right; auto]. }
  assert (Hrdy3 : ready false w3).
  { apply (ready_ext false level w w3); auto. eapply extends_impl; [|exact Hx]. intros e He.
    apply (qev_level false Ns q); auto; [apply Ns_length|lia|apply dev_qev; auto]. }
  assert (Hmeta3 : meta_state E w3 (a_meta a) (mloc false) (option_map (D false t) old)).
  { eapply meta_state_ext; [exact Hx| |exact Hmeta]. intros e. apply dev_not_meta; auto. lia. }
  assert (Hpath : metadata_path a4 = join_path root (meta_comps false level)).
  { rewrite metadata_path_join. change (a_cfg a4) with (a_cfg a). change (a_v3 a4) with (a_v3 a). rewrite Hc, Hv. reflexivity. }
  destruct (write_array_metadata_ok E HE a4 w3 d0 mids dy dx t old) as (s & w4 & M1 & M2' & M3).
  { change (a_cfg a4) with (a_cfg a). rewrite Hc. exact Hds. }
  { apply (inner_mids _ _ _ _ _ Hf). }
  { change (a_frames a4) with (a_frames a). rewrite Hn. lia. }
  { change (a_cfg a4) with (a_cfg a). change (a_v3 a4) with (a_v3 a). rewrite Hc, Hv. exact Ht. }
  { rewrite Hpath. change (a_cfg a4) with (a_cfg a). rewrite Hc. apply where_meta; auto. }
  { change (a_cfg a4) with (a_cfg a). change (a_v3 a4) with (a_v3 a). change (a_frames a4) with (a_frames a). rewrite Hc, Hv, Hn.
    intros X. apply Hdoc; auto. }
  { change (a_cfg a4) with (a_cfg a). change (a_v3 a4) with (a_v3 a). rewrite Hpath, Hc, Hv. exact Hmeta3. }
  { change (a_frames a4) with (a_frames a). rewrite Hn. exact Hold. }
  rewrite Hpath in M2', M3. change (a_cfg a4) with (a_cfg a) in M2', M3. change (a_v3 a4) with (a_v3 a) in M2', M3.
  change (a_frames a4) with (a_frames a) in M2', M3. rewrite Hc, Hv, Hn in M2', M3.
  fold bk in M2', M3. fold (mloc false) in M2', M3. fold ds A in M2', M3. fold (D false t (zlen F)) in M2', M3.
  assert (M2 : extends (fun e => is_mkdir e \/ only (mloc false) e) w3 w4) by (eapply extends_impl; [|exact M2']; apply mev_only).
  erewrite bind_ok. 2:{ erewrite bind_ok by exact M1. reflexivity. }
  rewrite (bind_ok getA _ (set_meta a4 (Some s), w4) (set_meta a4 (Some s), w4) (set_meta a4 (Some s))) by reflexivity.
  rewrite (make_buffers_ok (set_meta a4 (Some s)) F (q + 1)) by (auto; lia).
  erewrite bind_ok by reflexivity.
  exists s, w4. split; [reflexivity|]. split; [|split; [|split; [exact M3|]]].
  - eapply extends_trans; [eapply extends_impl; [|exact Hx]; intros; apply dev_qev; auto|].
    eapply extends_impl; [|exact M2]. intros e [He|He]; [left; auto|right; exists (mloc false); split; [left; auto|auto]].
  - intros c Hcc. rewrite (extends_content E _ _ _ _ M2).
    + unfold cloc. rewrite <- (qlocs_nth false Ns q c) by (rewrite <- CNs; auto). fold ls.
      rewrite U3 by (rewrite Hlen; clear - Hcc; lia). rewrite Hcs by (rewrite Hlen; clear - Hcc; lia).
      rewrite Z2Nat.id by lia. auto.
    + intros e [He|He]; [apply mkdir_affects; auto|]. intros Ha. pose proof (only_affects _ _ _ He Ha) as X.
      apply (mloc_not_q false Ns q); auto; [lia|]. rewrite <- X. unfold cloc.
      rewrite <- (qlocs_nth false Ns q c) by (rewrite <- CNs; auto). apply nth_In. fold ls. rewrite Hlen. clear - Hcc. lia.
  - exists w3. split; [exact Hx|]. split; [|exact M2']. intros c Hcc. unfold cloc.
    rewrite <- (qlocs_nth false Ns q c) by (rewrite <- CNs; auto). fold ls. apply U4. rewrite Hlen. clear - Hcc. lia.
Qed.

(** epochs completely written after [n] frames *)
Definition done_epochs (n : Z) : Z := n / P.
Definition last_meta (n : Z) : option Z := if n <? P then None else Some (n / P * P).

(** a document declaring [k] frames needs the chunks that hold them *)
Definition need2 (k : Z) (l : loc) : Prop := exists q c, 0 <= q /\ q * P < k /\ 0 <= c < nbuf /\ l = cloc false q c.
Definition safe2 : Z -> list event -> Prop := safe E (mloc false) (D false t) need2.

Record inv2 (F : list (list Z)) (a : writer) (w : world) : Prop := {
  i2_cfg : a_cfg a = cfg; i2_v3 : a_v3 a = false;
  i2_n : a_frames a = zlen F; i2_lt : zlen F < 2 ^ 32;
  i2_q : a_append a = zlen F / P; i2_sinks : a_sinks a = [];
  i2_bufs : bufs_ok F (zlen F / P) (a_bufs a);
  i2_fl : a_toflush a = zlen F mod P * fb;
  i2_st : forall q c, 0 <= q < zlen F / P -> 0 <= c < nbuf ->
            content E (w_trace w) (cloc false q c) = Some (enc (schunk F q c));
  i2_rdy : ready false w;
  i2_meta : meta_state E w (a_meta a) (mloc false) (option_map (D false t) (last_meta (zlen F)));
  i2_cl : forall q c, 0 <= q < zlen F / P -> 0 <= c < nbuf -> closed (w_trace w) (cloc false q c);
  i2_safe : bk = None -> safe2 (zlen F / P * P) (w_trace w)
}.

Lemma cloc_in q c : 0 <= c < nbuf -> In (cloc false q c) (qlocs false Ns q).
Proof.
  intros Hc. destruct consts as (_ & CN & _ & _ & _ & _ & CNs). unfold cloc.
  rewrite <- (qlocs_nth false Ns q c) by (rewrite <- CNs; auto). apply nth_In.
  rewrite qlocs_length by apply Ns_pos. rewrite <- CNs. clear - Hc. lia.
Qed.
Lemma cloc_own q c : 0 <= q -> 0 <= c < nbuf -> exists p, cloc false q c = mkloc bk p /\ own false root m level p.
Proof. intros Hq Hc. apply (qlocs_own false Ns q); auto; [apply Ns_pos|apply Ns_length|apply cloc_in; auto]. Qed.
Lemma qev_not_cloc q q' c e : 0 <= q -> 0 <= q' -> q <> q' -> 0 <= c < nbuf -> qev false Ns q e -> ~ affects (cloc false q' c) e.
Proof.
  intros Hq Hq' Hne Hc [H|(l & [<-|H1] & H2)]; [apply mkdir_affects; auto| |]; intros Ha; pose proof (only_affects _ _ _ H2 Ha) as X.
  - apply (mloc_not_q false Ns q'); auto; [apply Ns_pos|rewrite Ns_length; lia|]. rewrite <- X. apply cloc_in; auto.
  - apply Hne. apply (qlocs_disjoint false Ns q Ns q' l); auto; try apply Ns_pos. rewrite <- X. apply cloc_in; auto.
Qed.

Lemma D_mono v3 k k' : 0 <= k <= k' -> zlen (D v3 t k) <= zlen (D v3 t k').
Proof.
  intros H. destruct consts as (_ & _ & _ & _ & _ & CA & _). unfold D. apply doc_len_mono.
  split; [apply ceil_div_nonneg; lia|apply ceil_div_mono; lia].
Qed.
Lemma mloc_file v3 : bk = None -> mloc v3 = LF (join_path root (meta_comps v3 level)).
Proof. intros H. unfold mloc. rewrite H. reflexivity. Qed.
Lemma need2_own k l : need2 k l -> exists p, l = mkloc bk p /\ own false root m level p.
Proof. intros (q & c & H1 & H2 & H3 & ->). apply cloc_own; auto. Qed.

(** one flush keeps the order *)
Lemma flush_safe2 (F : list (list Z)) q w w' :
  bk = None -> 0 <= q -> q * P <= zlen F <= (q + 1) * P ->
  (forall q' c, 0 <= q' < q -> 0 <= c < nbuf -> closed (w_trace w) (cloc false q' c)) ->
  safe2 (q * P) (w_trace w) ->
  (exists w1, extends (dev false Ns q) w w1 /\ (forall c, 0 <= c < nbuf -> closed (w_trace w1) (cloc false q c))
              /\ extends (mev (mloc false) (D false t (zlen F))) w1 w') ->
  safe2 (zlen F) (w_trace w').
Proof.
  intros Hb Hq HF Hcl Hsafe (w1 & X1 & C1 & X2). destruct consts as (CP & _).
  assert (Hm2 : (1 <= List.length Ns)%nat) by (rewrite Ns_length; lia).
  assert (Hdn : forall q' c e, 0 <= q' < q -> 0 <= c < nbuf -> dev false Ns q e -> ~ affects (cloc false q' c) e).
  { intros q' c e Hq' Hc He. apply (qev_not_cloc q q'); auto; [lia|lia|apply dev_qev; auto]. }
  assert (S1 : safe2 (q * P) (w_trace w1)).
  { eapply safe_ext; [exact Hsafe|exact X1| |].
    - intros e He. left. apply (dev_not_meta false Ns q); auto. apply Ns_pos.
    - intros k l e Hk (q' & c & N1 & N2 & N3 & ->) He. apply Hdn; auto. split; [auto|].
      apply (Z.mul_lt_mono_pos_r P); [apply CP|]. lia. }
  eapply safe_meta with (N := q * P) (w := w1); [apply mloc_file; exact Hb|exact S1|exact X2| | | |].
  - split; [apply Z.mul_nonneg_nonneg; lia|lia].
  - intros k Hk. apply D_mono. lia.
  - intros k l Hk (q' & c & N1 & N2 & N3 & ->). exists q', c. repeat split; auto; lia.
  - intros l (q' & c & N1 & N2 & N3 & ->). split.
    + intros X. apply (mloc_not_q false Ns q'); auto; [apply Ns_pos|]. rewrite <- X. apply cloc_in; auto.
    + destruct (Z.eq_dec q' q) as [->|Hne]; [apply C1; auto|].
      assert (q' < q). { assert (q' * P < (q + 1) * P) by lia. apply Z.mul_lt_mono_pos_r in H; [lia|apply CP]. }
      eapply extends_closed; [exact X1| |apply Hcl; auto; lia]. intros e He. apply Hdn; auto.
Qed.

(** events of other writers do not matter *)
Lemma inv2_ext F a w w' (Q : event -> Prop) :
  extends Q w w' -> (forall e p, Q e -> own false root m level p -> ~ affects (mkloc bk p) e) -> ready false w' ->
  inv2 F a w -> inv2 F a w'.
Proof.
  intros Hx HQ Hr [I1 I2 I3 I4 I5 I6 I7 I8 I9 I10 I11 I12 I13]. destruct consts as (CP & _). constructor; auto.
  - intros q c Hq Hc. rewrite (extends_content E _ _ _ _ Hx); auto.
    destruct (cloc_own q c) as (p & -> & Hp); [lia|auto|]. intros e He. apply HQ; auto.
  - eapply meta_state_ext; eauto. destruct (mloc_own false) as (p & -> & Hp). intros e He. apply HQ; auto.
  - intros q c Hq Hc. eapply extends_closed; [exact Hx| |auto].
    destruct (cloc_own q c) as (p & -> & Hp); [lia|auto|]. intros e He. apply HQ; auto.
  - intros Hb. eapply safe_ext; [exact (I13 Hb)|exact Hx| |].
    + intros e He. left. destruct (mloc_own false) as (p & -> & Hp). apply HQ; auto.
    + intros k l e _ Hl He. destruct (need2_own k l Hl) as (p & -> & Hp). apply HQ; auto.
Qed.

Lemma inv2_init w a : ready false w -> (bk = None -> content E (w_trace w) (mloc false) = None) ->
  make_writer false cfg = Ok a -> inv2 [] a w.
Proof.
  intros Hr Hfr H. cbn in H. inversion H; subst a. destruct consts as (CP & _). constructor; cbn; auto.
  - change (zlen []) with 0. lia.
  - left; auto.
  - intros q c Hq. exfalso. change (zlen []) with 0 in Hq. rewrite Z.div_0_l in Hq; lia.
  - unfold last_meta. change (zlen []) with 0. rewrite (proj2 (Z.ltb_lt 0 P)) by lia. cbn. auto.
  - intros q c Hq. exfalso. change (zlen []) with 0 in Hq. rewrite Z.div_0_l in Hq; lia.
  - intros Hb. eapply safe_init; [apply mloc_file; exact Hb|auto].
Qed.

Lemma div_succ n : 0 <= n -> (n + 1) mod P = 0 -> (n + 1) / P = n / P + 1 /\ (n / P + 1) * P = n + 1 /\ n mod P + 1 = P.
Proof.
  intros Hn H. destruct consts as (CP & _).
  pose proof (Z.div_mod n P ltac:(lia)) as E1. pose proof (Z.div_mod (n + 1) P ltac:(lia)) as E2.
  pose proof (Z.mod_pos_bound n P ltac:(lia)). rewrite H in E2.
  assert (X : (n + 1) / P = n / P + 1).
  { assert (P * ((n + 1) / P - n / P) = n mod P + 1) by lia. nia. }
  rewrite X in E2. split; [auto|]. split; lia.
Qed.
Lemma div_same n : 0 <= n -> (n + 1) mod P <> 0 -> (n + 1) / P = n / P /\ (n + 1) mod P = n mod P + 1.
Proof.
  intros Hn H. destruct consts as (CP & _).
  pose proof (Z.div_mod n P ltac:(lia)) as E1. pose proof (Z.mod_pos_bound n P ltac:(lia)).
  assert (n mod P + 1 <> P).
  { intros X. apply H. replace (n + 1) with ((n / P + 1) * P) by lia. apply Z.mod_mul. lia. }
  split; [apply div_unique' with (n mod P + 1)|apply mod_unique' with (n / P)]; lia.
Qed.

Theorem write_frame_v2 F a w data :
  inv2 F a w -> zlen data = fb -> zlen F + 1 < 2 ^ 32 ->
  exists a' w', write_frame E data (a, w) = ((a', w'), Ok fb) /\ inv2 (F ++ [data]) a' w'
    /\ extends (level_ev false root m bk level) w w' /\ a_final a' = a_final a.
Proof.
  intros [I1 I2 I3 I4 I5 I6 I7 I8 I9 I10 I11 I12 I13] Hd Hlt. destruct consts as (CP & CN & CB & CF & CE & CA & CNs).
  pose proof (zlen_nonneg F) as HF0. assert (Hq0 : 0 <= zlen F / P) by (apply Z.div_pos; lia).
  rewrite (write_frame_prefix a w F data I1 I3 Hlt I7 I8 Hd).
  assert (HL : zlen (F ++ [data]) = zlen F + 1) by (rewrite zlen_app; reflexivity).
  set (a1 := after_frame _ _ _ _). set (F' := F ++ [data]) in *.
  assert (HqP : zlen F / P <= zlen F) by (apply Z.div_le_upper_bound; [lia|]; nia).
  destruct (Z.eqb_spec ((zlen F + 1) mod P) 0) as [Hz|Hz].
  - destruct (div_succ _ HF0 Hz) as (D1 & D2 & D3).
    destruct (flush_v2_ok a1 w F' (zlen F / P) (last_meta (zlen F))) as (s & w' & R1 & R2 & R3 & R4 & R5); auto.
    + lia.
    + lia.
    + cbn. rewrite D3. apply Z.neq_mul_0. lia.
    + rewrite D2. lia.
    + intros k Hk. unfold last_meta in Hk. destruct (zlen F <? P); [discriminate|]. inversion Hk; subst k.
      pose proof (Z.mul_div_le (zlen F) P ltac:(lia)). split; [apply Z.mul_nonneg_nonneg; lia|lia].
    + unfold bind. rewrite R1. do 2 eexists. split; [reflexivity|]. split; [|split].
      * constructor; cbn; auto; try lia.
        -- rewrite HL. lia.
        -- right. rewrite HL, D1. reflexivity.
        -- rewrite HL, Hz. lia.
        -- intros q c Hq Hc. rewrite HL, D1 in Hq. destruct (Z.eq_dec q (zlen F / P)) as [->|Hne]; [apply R3; auto|].
           rewrite (extends_content E _ _ _ _ R2) by (intros e; apply qev_not_cloc; auto; lia).
           rewrite I9 by (auto; lia). f_equal. f_equal. symmetry. apply (spec_chunk_app bpp d0 mids dy dx Hf); auto; [lia|].
           fold A P. apply Z.le_trans with (zlen F / P * P); [apply Z.mul_le_mono_nonneg_r; lia|].
           rewrite Z.mul_comm. apply Z.mul_div_le. lia.
        -- apply (ready_ext false level w w'); auto. eapply extends_impl; [|exact R2]. intros e He.
           apply (qev_level false Ns (zlen F / P)); auto; [apply Ns_pos|apply Ns_length].
        -- unfold last_meta. rewrite HL. rewrite (proj2 (Z.ltb_ge _ _)) by (pose proof (Z.mod_pos_bound (zlen F) P ltac:(lia)); pose proof (Z.div_mod (zlen F) P ltac:(lia)); nia).
           rewrite D1, D2. cbn [option_map]. rewrite HL in R4. exact R4.
        -- destruct R5 as (w1 & Y1 & Y2 & Y3). intros q c Hq Hc. rewrite HL, D1 in Hq. eapply extends_closed; [exact Y3| |].
           ++ intros e He Ha. apply mev_only in He as [He|He]; [eapply mkdir_affects; eauto|]. pose proof (only_affects _ _ _ He Ha) as X.
              apply (mloc_not_q false Ns q); [apply Ns_pos|rewrite Ns_length; lia|lia|]. rewrite <- X. apply cloc_in; auto.
           ++ destruct (Z.eq_dec q (zlen F / P)) as [->|Hne]; [apply Y2; auto|].
              eapply extends_closed; [exact Y1| |apply I12; auto; lia]. intros e He. apply (qev_not_cloc (zlen F / P) q); auto; [lia|apply dev_qev; auto].
        -- intros Hb. pose proof (Z.mul_div_le (zlen F) P ltac:(lia)) as HX.
           rewrite HL, D1, D2, <- HL. apply (flush_safe2 F' (zlen F / P) w w'); auto. rewrite D2, HL. lia.
      * eapply extends_impl; [|exact R2]. intros e He. apply (qev_level false Ns (zlen F / P)); auto; [apply Ns_pos|apply Ns_length].
      * reflexivity.
  - destruct (div_same _ HF0 Hz) as (D1 & D2).
    unfold bind, ret. do 2 eexists. split; [reflexivity|]. split; [|split; [apply extends_refl|reflexivity]].
    constructor; cbn; auto; try lia.
    + rewrite HL, D1. auto.
    + right. rewrite HL, D1. reflexivity.
    + rewrite HL, D2. auto.
    + intros q c Hq Hc. rewrite HL, D1 in Hq. rewrite I9 by (auto; lia). f_equal. f_equal. symmetry.
      apply (spec_chunk_app bpp d0 mids dy dx Hf); auto; [lia|].
      fold A P. apply Z.le_trans with (zlen F / P * P); [apply Z.mul_le_mono_nonneg_r; lia|].
      rewrite Z.mul_comm. apply Z.mul_div_le. lia.
    + replace (last_meta (zlen F')) with (last_meta (zlen F)); [exact I11|].
      unfold last_meta. rewrite HL, D1. destruct (Z.ltb_spec (zlen F) P); destruct (Z.ltb_spec (zlen F + 1) P); auto; exfalso.
      * assert (zlen F + 1 = P) by lia. apply Hz. rewrite H1. apply Z.mod_same. lia.
      * lia.
    + intros q c Hq Hc. rewrite HL, D1 in Hq. apply I12; auto.
    + rewrite HL, D1. exact I13.
Qed.

Lemma finalize_meta a w c :
  meta_state E w (a_meta a) (mloc false) (Some c) -> 0 < zlen c < 2 ^ 64 -> a_sinks a = [] ->
  exists a' w', (ok2 <- on_meta_slot (finalize_sink E) ;;
    if ok2 then
      a <- getA ;;
      miter (fun s => match s with Some s => onWd (sink_destroy s) | None => ret tt end) (a_sinks a) ;;;
      modA (fun a => set_sinks (set_bufs a []) []) ;;;
      ret true
    else ret false) (a, w) = ((a', w'), Ok true)
    /\ extends (shut (mloc false)) w w' /\ content E (w_trace w') (mloc false) = Some c.
Proof.
  intros Hm Hl Hs. destruct (a_meta a) as [s|] eqn:Em; [|destruct Hm]. destruct Hm as [M1 M2].
  destruct (finalize_sink_shut E w s c HE M2) as (w' & R1 & R2 & R3 & _); [lia|left; intros ->; change (zlen []) with 0 in Hl; lia|].
  erewrite bind_ok. 2:{ unfold on_meta_slot. rewrite Em, R1. reflexivity. }
  cbv beta iota. unfold bind at 1. unfold getA. cbn [fst]. cbn [a_sinks set_meta]. rewrite Hs. cbn [miter].
  unfold bind, ret, modA. cbn [fst snd]. do 2 eexists. split; [reflexivity|]. rewrite M1 in R2, R3. auto.
Qed.

Theorem finalize_v2 F a w :
  inv2 F a w -> (bk = None -> zlen (D false t (zlen F)) < 2 ^ 64) ->
  exists a' w', finalize_array E (a, w) = ((a', w'), Ok true)
    /\ extends (level_ev false root m bk level) w w'
    /\ (forall q c, 0 <= q -> q * P < zlen F -> 0 <= c < nbuf ->
          content E (w_trace w') (cloc false q c) = Some (enc (schunk F q c)))
    /\ (F <> [] -> content E (w_trace w') (mloc false) = Some (D false t (zlen F)))
    /\ (F = [] -> w' = w)
    /\ (bk = None -> safe2 (zlen F) (w_trace w')).
Proof.
  intros [I1 I2 I3 I4 I5 I6 I7 I8 I9 I10 I11 I12 I13] Hd64. destruct consts as (CP & CN & CB & CF & CE & CA & CNs).
  pose proof (zlen_nonneg F) as HF0. assert (Hq0 : 0 <= zlen F / P) by (apply Z.div_pos; lia).
  pose proof (Z.div_mod (zlen F) P ltac:(lia)) as HDM. pose proof (Z.mod_pos_bound (zlen F) P ltac:(lia)) as Hmb.
  assert (HqP : zlen F / P <= zlen F) by (apply Z.div_le_upper_bound; [lia|]; nia).
  unfold finalize_array. rewrite (bind_ok (modA _) _ (a, w) (set_final a true, w) tt) by reflexivity.
  set (a0 := set_final a true).
  assert (Hshut : forall w w', bk = None -> extends (shut (mloc false)) w w' -> safe2 (zlen F) (w_trace w) -> safe2 (zlen F) (w_trace w')).
  { intros v v' Hb Hx Hsf. eapply safe_ext; [exact Hsf|exact Hx| |].
    - intros e [He1 He2]. right. rewrite (mloc_file false Hb) in He2. destruct e; simpl in *; tauto.
    - intros k l e _ (q & c & N1 & N2 & N3 & ->) He Ha. apply shut_only in He. pose proof (only_affects _ _ _ He Ha) as X.
      apply (mloc_not_q false Ns q); [apply Ns_pos|rewrite Ns_length; lia|lia|]. rewrite <- X. apply cloc_in; auto. }
  assert (HDl : 0 < zlen (D false t (zlen F)) < 2 ^ 64).
  { split.
    - pose proof (doc_nonempty false ds t (c_comp cfg) (ceil_div (zlen F) (prodZ A))) as X. fold (D false t (zlen F)) in X.
      pose proof (zlen_nonneg (D false t (zlen F))). destruct (D false t (zlen F)); [congruence|rewrite zlen_cons in *; pose proof (zlen_nonneg l); lia].
    - destruct bk eqn:Eb; [|auto]. eapply Z.lt_trans; [apply Hdoc; [discriminate|lia]|]. unfold part_size. lia. }
  destruct (Z.eq_dec (zlen F mod P) 0) as [Hz|Hz].
  - assert (Hfl : flush E (a0, w) = ((a0, w), Ok tt)).
    { unfold flush. rewrite (bind_ok getA _ (a0, w) (a0, w) a0) by reflexivity. change (a_toflush a0) with (a_toflush a).
      rewrite I8, Hz. reflexivity. }
    erewrite bind_ok. 2:{ unfold catchM. erewrite bind_ok by exact Hfl. reflexivity. }
    cbv beta iota.
    destruct (Z.eq_dec (zlen F) 0) as [HF|HF].
    + assert (F = []) by (destruct F; [auto|rewrite zlen_cons in HF; pose proof (zlen_nonneg F); lia]). subst F.
      change (zlen []) with 0 in *. unfold last_meta in I11. rewrite (proj2 (Z.ltb_lt 0 P)) in I11 by lia. cbn in I11.
      destruct (a_meta a) eqn:Em; [destruct I11|].
      erewrite bind_ok. 2:{ unfold on_meta_slot. change (a_meta a0) with (a_meta a). rewrite Em. reflexivity. }
      cbv beta iota. unfold bind at 1. unfold getA. cbn [fst]. cbn [a_sinks set_meta]. change (a_sinks a0) with (a_sinks a). rewrite I6. cbn [miter].
      unfold bind, ret, modA. cbn [fst snd]. do 2 eexists. split; [reflexivity|]. split; [apply extends_refl|].
      split; [|split; [congruence|split; [auto|exact I13]]]. intros q c Hq HqF. exfalso. clear - Hq HqF CP. nia.
    + assert (Hge : P <= zlen F).
      { destruct (Z.lt_ge_cases (zlen F) P); [|auto]. rewrite Z.mod_small in Hz by (clear - HF0 H; lia). congruence. }
      unfold last_meta in I11. rewrite (proj2 (Z.ltb_ge _ _) Hge) in I11. cbn [option_map] in I11.
      replace (zlen F / P * P) with (zlen F) in I11 by lia.
      destruct (finalize_meta a0 w (D false t (zlen F)) I11 HDl I6) as (a' & w' & R1 & R2' & R3).
      assert (R2 : extends (only (mloc false)) w w') by (eapply extends_impl; [|exact R2']; apply shut_only).
      exists a', w'. split; [exact R1|].
      assert (Hx : extends (level_ev false root m bk level) w w').
      { eapply extends_impl; [|exact R2]. intros e He. right. destruct (mloc_own false) as (p & X & Hp). rewrite X in He. eauto. }
      split; [exact Hx|]. split; [|split; [auto|split]].
      * intros q c Hq HqF Hc. rewrite (extends_content E _ _ _ _ R2).
        -- apply I9; auto. split; [auto|]. apply (Z.mul_lt_mono_pos_r P); [apply CP|]. clear - HqF HDM Hz; lia.
        -- intros e He Ha. pose proof (only_affects _ _ _ He Ha) as X. apply (mloc_not_q false Ns q); auto; [apply Ns_pos|rewrite Ns_length; lia|].
           rewrite <- X. apply cloc_in; auto.
      * intros ->. exfalso. apply HF. reflexivity.
      * intros Hb. eapply Hshut; [exact Hb|exact R2'|]. replace (zlen F / P * P) with (zlen F) in I13 by lia. exact (I13 Hb).
  - assert (HFne : F <> []) by (intros ->; apply Hz; apply Z.mod_0_l; lia).
    assert (HF1 : 0 < zlen F) by (destruct F; [congruence|rewrite zlen_cons; pose proof (zlen_nonneg F); lia]).
    assert (Hb : a_bufs a = schunks F (zlen F / P)) by (destruct I7 as [[_ X]|X]; [congruence|auto]).
    assert (Hq1 : zlen F / P < zlen F \/ P = 1) by (destruct (Z.eq_dec P 1); [auto|left; apply Z.div_lt; lia]).
    destruct Hq1 as [Hq1|Hq1]; [|exfalso; rewrite Hq1, Z.mod_1_r in Hz; lia].
    destruct (flush_v2_ok a0 w F (zlen F / P) (last_meta (zlen F))) as (s & w1 & R1 & R2 & R3 & R4 & R5); auto.
    + lia.
    + cbn. rewrite I8. apply Z.neq_mul_0. lia.
    + lia.
    + intros k Hk. unfold last_meta in Hk. destruct (zlen F <? P); [discriminate|]. inversion Hk; subst k.
      pose proof (Z.mul_div_le (zlen F) P ltac:(lia)). split; [apply Z.mul_nonneg_nonneg; lia|lia].
    + erewrite bind_ok. 2:{ unfold catchM. erewrite bind_ok by exact R1. reflexivity. }
      cbv beta iota.
      destruct (finalize_meta (flushed a0 (zlen F / P) s (schunks F (zlen F / P + 1))) w1 (D false t (zlen F)) R4 HDl) as (a' & w' & S1 & S2' & S3); [reflexivity|].
      assert (S2 : extends (only (mloc false)) w1 w') by (eapply extends_impl; [|exact S2']; apply shut_only).
      exists a', w'. split; [exact S1|].
      assert (Hx : extends (level_ev false root m bk level) w w').
      { eapply extends_trans.
        - eapply extends_impl; [|exact R2]. intros e He. apply (qev_level false Ns (zlen F / P)); auto; [apply Ns_pos|apply Ns_length].
        - eapply extends_impl; [|exact S2]. intros e He. right. destruct (mloc_own false) as (p & X & Hp). rewrite X in He. eauto. }
      split; [exact Hx|]. split; [|split; [auto|split; [congruence|]]].
      2:{ intros Hbk. eapply Hshut; [exact Hbk|exact S2'|]. apply (flush_safe2 F (zlen F / P) w w1); auto. lia. }
      intros q c Hq HqF Hc. rewrite (extends_content E _ _ _ _ S2).
      * destruct (Z.eq_dec q (zlen F / P)) as [->|Hne]; [apply R3; auto|].
        rewrite (extends_content E _ _ _ _ R2) by (intros e; apply qev_not_cloc; auto; lia).
        apply I9; auto. split; [auto|].
        assert (q * P < (zlen F / P + 1) * P) by (clear - HqF HDM Hmb; lia). apply Z.mul_lt_mono_pos_r in H; [clear - H Hne; lia|apply CP].
      * intros e He Ha. pose proof (only_affects _ _ _ He Ha) as X. apply (mloc_not_q false Ns q); auto; [apply Ns_pos|rewrite Ns_length; lia|].
        rewrite <- X. apply cloc_in; auto.
Qed.

(** the Zarr v2 reader finds what was appended *)
Theorem read_v2_ok F tr (decode : list Z -> list Z) :
  (forall raw, zlen raw = B -> decode (enc raw) = raw) ->
  (forall q c, 0 <= q -> q * P < zlen F -> 0 <= c < nbuf -> content E tr (cloc false q c) = Some (enc (schunk F q c))) ->
  forall tt mm y x b, 0 <= tt < ceil_div (zlen F) (prodZ A) -> in_bounds A mm -> 0 <= y < d_array dy -> 0 <= x < d_array dx -> 0 <= b < bpp ->
  read_v2 (fun k => content E tr (mkloc bk k)) decode (join_path root [dec level]) (map d_chunk ds) bpp (tt :: mm ++ [y; x]) b
  = appended_byte bpp A (d_array dx) F tt mm y x b.
Proof.
  intros Hdec Hst tt mm y x b Htt Hmm Hy Hx Hb. destruct consts as (CP & CN & CB & CF & CE & CA & CNs).
  destruct (spec_byte_read bpp d0 mids dy dx Hf F tt mm y x b) as (R1 & R2 & R3 & R4 & R5); auto; [lia|].
  fold ds in R1, R2, R3, R4, R5. fold Ns nbuf in R2, R3. fold B in R4. fold A in R5.
  unfold read_v2. set (cc := zip_with Z.div (tt :: mm ++ [y; x]) (map d_chunk ds)) in *.
  set (o := ravel (map d_chunk ds) (zip_with Z.modulo (tt :: mm ++ [y; x]) (map d_chunk ds)) * bpp + b) in *.
  assert (Hcc : exists q rest, cc = q :: rest).
  { unfold cc, ds. cbn [map zip_with]. eauto. }
  destruct Hcc as (q & rest & Ecc). rewrite Ecc in *. cbn [hd tl] in *.
  pose proof (fit_c0 _ _ _ _ _ Hf) as HC0.
  assert (Hq : 0 <= q) by (rewrite R1; apply Z.div_pos; lia).
  assert (HqF : q * P < zlen F).
  { assert (tt * prodZ A < zlen F).
    { destruct Htt as [Ht0 Ht1]. unfold ceil_div in Ht1.
      assert (tt * prodZ A <= (zlen F + prodZ A - 1) / prodZ A * prodZ A - prodZ A) by nia.
      pose proof (Z.mul_div_le (zlen F + prodZ A - 1) (prodZ A) ltac:(lia)). lia. }
    assert (q * d_chunk d0 <= tt) by (rewrite R1, Z.mul_comm; apply Z.mul_div_le; lia).
    unfold P. rewrite Z.mul_assoc. eapply Z.le_lt_trans; [|exact H]. apply Z.mul_le_mono_nonneg_r; lia. }
  rewrite path_of_coords_cons.
  replace (join_path root [dec level] ++ "/" ++ dec q)%string with (base false q) by reflexivity.
  assert (Erest : rest = unravel Ns (ravel Ns rest)) by (symmetry; apply unravel_ravel; auto).
  rewrite Erest at 1. change (mkloc bk (path_of_coords (base false q) (unravel Ns (ravel Ns rest)))) with (cloc false q (ravel Ns rest)).
  rewrite Hst by auto. rewrite Hdec by apply schunk_len.
  rewrite <- R5, R1. rewrite <- R1. apply (getb_spec_chunk bpp d0 mids dy dx). exact R4.
Qed.
End V2.

(** ** version 3 *)
Section V3.
Variable t : string.
Hypothesis Ht : dtype_v3 (c_dtype cfg) = Some t.
Hypothesis Hdoc : bk <> None -> forall k, 0 <= k < 2 ^ 32 -> zlen (D true t k) < part_size.
Hypothesis Hs : fits_shards d0 mids dy dx.
Let S0 := d_shard d0.
Let NS := map nsh (mids ++ [dy; dx]).
Let K := prodZ NS.
Let Kn := Z.to_nat K.
Let CPS := prodZ (map d_shard ds).
Let PP := P * S0.
Hypothesis Hfile : S0 * (nbuf * mxl) + 16 * CPS < 2 ^ 64.
Let mem := members mids dy dx.
Let slot := slot_of d0 mids dy dx.
Definition pay (F : list (list Z)) (q : Z) (c : nat) : list Z := enc (schunk F q (Z.of_nat c)).

(** content and table of shard [k] of shard epoch [s] after [r] flushes *)
Fixpoint shard_acc (F : list (list Z)) (s : Z) (k r : nat) : list Z * list Z :=
  match r with
  | O => ([], zrep max64 (2 * CPS))
  | S r' => let '(c, T) := shard_acc F s k r' in
            let q := s * S0 + Z.of_nat r' in
            (c ++ body (pay F q) (mem k), fill slot (pay F q) (mem k) (zlen c) T)
  end.
Definition scont F s k r := fst (shard_acc F s k r).
Definition stab F s k r := snd (shard_acc F s k r).
Definition sfile F s k r := scont F s k r ++ table_bytes (stab F s k r).

Lemma scont_S F s k r : scont F s k (S r) = scont F s k r ++ body (pay F (s * S0 + Z.of_nat r)) (mem k).
Proof. unfold scont. cbn [shard_acc]. destruct (shard_acc F s k r). reflexivity. Qed.
Lemma stab_S F s k r : stab F s k (S r) = fill slot (pay F (s * S0 + Z.of_nat r)) (mem k) (zlen (scont F s k r)) (stab F s k r).
Proof. unfold stab, scont. cbn [shard_acc]. destruct (shard_acc F s k r). reflexivity. Qed.

Lemma v3_consts : 0 < S0 /\ 0 < K < 2 ^ 31 /\ 0 < CPS < 2 ^ 31 /\ 0 < PP < 2 ^ 63 /\ allpos NS /\ List.length NS = (m + 2)%nat.
Proof.
  pose proof (fit_s0 _ _ _ _ Hs) as H0. pose proof (sh_NS_pos bpp d0 mids dy dx Hf Hs) as H1.
  pose proof (sh_NS_le bpp d0 mids dy dx Hf Hs) as H2. pose proof (sh_N_bound bpp d0 mids dy dx Hf) as H3.
  pose proof (fit_cps _ _ _ _ Hs) as H4. pose proof (fit_speriod _ _ _ _ Hs) as H5. destruct consts as (CP & _).
  pose proof (sh_cps_pos d0 mids dy dx Hs) as H6.
  split; [exact H0|]. split; [split; [apply prodZ_pos; exact H1|eapply Z.le_lt_trans; [exact H2|exact H3]]|].
  split; [split; [apply prodZ_pos; exact H6|exact H4]|].
  split; [split; [apply Z.mul_pos_pos; [apply CP|exact H0]|]|].
  { unfold PP, P, S0, A. replace (d_chunk d0 * prodZ (map d_array mids) * d_shard d0) with (d_chunk d0 * d_shard d0 * prodZ (map d_array mids)) by ring. exact H5. }
  split; [exact H1|]. unfold NS, m. rewrite map_length, app_length. reflexivity.
Qed.

Lemma mem_lt k c : In c (mem k) -> 0 <= Z.of_nat c < nbuf.
Proof.
  intros H. apply (members_lt d0) in H as [H _]. destruct consts as (_ & CN & _ & _ & _ & _ & CNs). rewrite CNs. unfold Ns. lia.
Qed.

Lemma shard_acc_stable F F' s k r : 0 <= s -> (s * S0 + Z.of_nat r) * P <= zlen F ->
  shard_acc (F ++ F') s k r = shard_acc F s k r.
Proof.
  intros Hs0. destruct consts as (CP & _). destruct v3_consts as (V0 & _). induction r as [|r IH]; intros Hr; [reflexivity|]. cbn [shard_acc].
  assert (Hr1 : (s * S0 + Z.of_nat r) * P <= (s * S0 + Z.of_nat (S r)) * P) by (apply Z.mul_le_mono_nonneg_r; lia).
  rewrite IH by lia. destruct (shard_acc F s k r) as [c T].
  assert (X : forall x, In x (mem k) -> pay (F ++ F') (s * S0 + Z.of_nat r) x = pay F (s * S0 + Z.of_nat r) x).
  { intros x Hx. unfold pay. f_equal. apply (spec_chunk_app bpp d0 mids dy dx Hf).
    - apply Z.add_nonneg_nonneg; [apply Z.mul_nonneg_nonneg; lia|lia].
    - apply (mem_lt k x Hx).
    - fold A P. replace (s * S0 + Z.of_nat r + 1) with (s * S0 + Z.of_nat (S r)) by lia. exact Hr. }
  rewrite (body_ext _ _ _ X), (fill_ext slot _ _ _ _ _ X). reflexivity.
Qed.
Lemma scont_stable F F' s k r : 0 <= s -> (s * S0 + Z.of_nat r) * P <= zlen F -> scont (F ++ F') s k r = scont F s k r.
Proof. intros; unfold scont; rewrite shard_acc_stable; auto. Qed.
Lemma stab_stable F F' s k r : 0 <= s -> (s * S0 + Z.of_nat r) * P <= zlen F -> stab (F ++ F') s k r = stab F s k r.
Proof. intros; unfold stab; rewrite shard_acc_stable; auto. Qed.
Lemma sfile_stable F F' s k r : 0 <= s -> (s * S0 + Z.of_nat r) * P <= zlen F -> sfile (F ++ F') s k r = sfile F s k r.
Proof. intros; unfold sfile; rewrite scont_stable, stab_stable; auto. Qed.

Lemma stab_len F s k r : zlen (stab F s k r) = 2 * CPS.
Proof.
  destruct v3_consts as (_ & _ & V2 & _). induction r as [|r IH].
  - change (zlen (zrep max64 (2 * CPS)) = 2 * CPS). apply zlen_zrep. clear - V2; lia.
  - rewrite stab_S. unfold zlen. rewrite fill_len. exact IH.
Qed.
Lemma body_bound F q k : 0 <= zlen (body (pay F q) (mem k)) <= nbuf * mxl.
Proof.
  split; [apply zlen_nonneg|]. destruct consts as (_ & CN & _ & _ & _ & _ & CNs).
  assert (X : forall l, zlen (body (pay F q) l) <= Z.of_nat (List.length l) * mxl).
  { induction l as [|c l IHl]; [discriminate|].
    rewrite body_cons, zlen_app. unfold pay at 1. pose proof (enc_len F q (Z.of_nat c)). cbn [List.length].
    clear - IHl H. rewrite Nat2Z.inj_succ. lia. }
  eapply Z.le_trans; [apply X|]. pose proof (members_length d0 mids dy dx k) as L. fold Ns in L. rewrite <- CNs in L.
  pose proof (enc_len F q 0). apply Z.mul_le_mono_nonneg_r; [lia|]. unfold mem. clear - L CN. lia.
Qed.
Lemma scont_len F s k r : 0 <= zlen (scont F s k r) <= Z.of_nat r * (nbuf * mxl).
Proof.
  induction r as [|r IH]; [split; discriminate|]. rewrite scont_S, zlen_app. pose proof (body_bound F (s * S0 + Z.of_nat r) k).
  rewrite Nat2Z.inj_succ. lia.
Qed.
Lemma file_room r : (r < Z.to_nat S0)%nat -> (Z.of_nat r + 1) * (nbuf * mxl) + 16 * CPS < 2 ^ 64.
Proof.
  intros Hr. eapply Z.le_lt_trans; [|exact Hfile]. apply Zplus_le_compat_r. pose proof (body_bound [] 0 0).
  apply Z.mul_le_mono_nonneg_r; lia.
Qed.
Lemma stab_words F s k r : (r <= Z.to_nat S0)%nat -> words_ok (stab F s k r).
Proof.
  destruct v3_consts as (_ & _ & V2 & _). induction r as [|r IH]; intros Hr.
  - change (words_ok (zrep max64 (2 * CPS))). unfold words_ok, zrep. apply Forall_forall. intros x Hx. apply repeat_spec in Hx. subst x. unfold max64. lia.
  - rewrite stab_S. pose proof (scont_len F s k r). pose proof (body_bound F (s * S0 + Z.of_nat r) k). pose proof (file_room r Hr) as X.
    apply fill_words; [apply IH; lia|lia|]. 
    assert (zlen (scont F s k r) + zlen (body (pay F (s * S0 + Z.of_nat r)) (mem k)) <= (Z.of_nat r + 1) * (nbuf * mxl)) by lia. lia.
Qed.

Definition slocs (s : Z) : list loc := qlocs true NS s.
Definition sloc (s : Z) (k : nat) : loc := mkloc bk (path_of_coords (base true s) (unravel NS (Z.of_nat k))).
Definition overk {X} (f : nat -> X) : list X := map f (seq 0 Kn).
Lemma overk_len {X} (f : nat -> X) : List.length (overk f) = Kn.
Proof. unfold overk. rewrite map_length, seq_length. auto. Qed.
Lemma nth_overk {X} (f : nat -> X) k d : (k < Kn)%nat -> nth k (overk f) d = f k.
Proof.
  intros H. unfold overk. rewrite (nth_indep _ d (f O)) by (rewrite map_length, seq_length; auto).
  rewrite map_nth, seq_nth by auto. reflexivity.
Qed.
Lemma slocs_len s : List.length (slocs s) = Kn.
Proof. destruct v3_consts as (_ & _ & _ & _ & V & _). unfold slocs. rewrite qlocs_length by auto. reflexivity. Qed.
Lemma slocs_nth s k : (k < Kn)%nat -> nth k (slocs s) (LF "") = sloc s k.
Proof.
  intros H. rewrite <- (Nat2Z.id k) at 1. unfold slocs. rewrite qlocs_nth; [reflexivity|].
  unfold Kn, K in H. clear - H. lia.
Qed.

(** state of the data sinks after [r] flushes of shard epoch [s] *)
Definition sinks_at (a : writer) (w : world) (F : list (list Z)) (s : Z) (r : nat) : Prop :=
  if Nat.eqb r 0 then a_sinks a = []
  else sinks_hold E w (a_sinks a) (slocs s) (overk (fun k => scont F s k r)).

Lemma should_rollover_v3 a : a_cfg a = cfg -> a_v3 a = true -> should_rollover a = Ok (a_frames a mod PP =? 0).
Proof.
  intros Hc Hv. destruct v3_consts as (V0 & _ & _ & V3 & _). unfold should_rollover. rewrite Hv, Hc, Hds.
  assert (Ef : final_dim ds = d0) by apply final_dim_eq. rewrite Ef. cbv zeta.
  pose proof (fit_c0 _ _ _ _ _ Hf) as C0. pose proof (fit_spp _ _ _ _ Hs) as C1. fold S0 in C1. fold S0.
  assert (EP : d_chunk d0 * S0 * prodZ A = PP) by (unfold PP, P; ring).
  rewrite u32_id by (split; [apply Z.mul_nonneg_nonneg; lia|exact C1]).
  rewrite frames_before_flush_exact; [|apply Z.mul_nonneg_nonneg; lia|rewrite EP; lia].
  rewrite EP. rewrite (proj2 (Z.ltb_lt 0 PP)) by lia. reflexivity.
Qed.

Lemma map_overk {X Y} (g : X -> Y) (f : nat -> X) : map g (overk f) = overk (fun k => g (f k)).
Proof. unfold overk. apply map_map. Qed.
Lemma list_overk {X} (l : list X) f d : List.length l = Kn -> (forall k, (k < Kn)%nat -> nth k l d = f k) -> l = overk f.
Proof.
  intros L H. apply nth_ext with d d; [rewrite overk_len; auto|]. intros k Hk. rewrite nth_overk by lia. apply H. lia.
Qed.

Lemma flush_impl_v3_ok a w F s r tbl :
  a_cfg a = cfg -> a_v3 a = true -> a_append a = s -> 0 <= s -> (r < Z.to_nat S0)%nat -> ready true w ->
  sinks_at a w F s r ->
  a_tables a = overk (fun k => stab F s k r) -> a_offsets a = overk (fun k => zlen (scont F s k r)) ->
  a_bufs a = map enc (schunks F (s * S0 + Z.of_nat r)) ->
  tbl = a_final a || (a_frames a mod PP =? 0) ->
  exists ss w', flush_impl E (a, w)
     = ((upd3 a ss (overk (fun k => if tbl then zrep max64 (2 * CPS) else stab F s k (S r)))
                   (overk (fun k => if tbl then 0 else zlen (scont F s k (S r)))), w'), Ok true)
    /\ extends (dev true NS s) w w'
    /\ sinks_hold E w' ss (slocs s) (overk (fun k => if tbl then sfile F s k (S r) else scont F s k (S r))).
Proof.
  intros Hc Hv Hap Hs0 Hr Hrdy Hsk HT HO Hb Htbl.
  destruct consts as (CP & CN & CB & CF & CE & CA & CNs). destruct v3_consts as (V0 & V1 & V2 & V3 & V4 & V5).
  set (q := s * S0 + Z.of_nat r) in *.
  unfold flush_impl. rewrite (bind_ok getA _ (a, w) (a, w) a) by reflexivity. rewrite Hv.
  unfold flush_impl_v3. rewrite (bind_ok getA _ (a, w) (a, w) a) by reflexivity.
  (* sinks *)
  assert (Hopen : exists ss w1, (match a_sinks a with [] => make_data_sinks E | _ => ret true end) (a, w) = ((set_sinks a ss, w1), Ok true)
      /\ extends (dev true NS s) w w1 /\ sinks_hold E w1 ss (slocs s) (overk (fun k => scont F s k r))).
  { unfold sinks_at in Hsk. destruct (Nat.eqb_spec r 0) as [Hr0|Hr0].
    - rewrite Hsk. subst r.
      assert (Hnp : Forall (fun d => parts_along a d = Ok (nsh d) /\ 0 < nsh d) (mids ++ [dy; dx])).
      { eapply Forall_impl; [|apply (sh_both bpp d0 mids dy dx Hf Hs)]. intros d [Hd1 Hd2]. unfold parts_along. rewrite Hv.
        split; [apply shards_along_ok|apply nsh_pos]; auto. }
      destruct (make_data_sinks_ok a w true nsh Hc Hv) as (ss & w1 & R1 & R2 & R3); auto.
      { rewrite Hap. auto. }
      rewrite Hap in R2, R3. fold NS in R2, R3. exists ss, w1. split; [exact R1|]. split; [exact R2|]. fold (slocs s) in R3.
      replace (overk (fun k => scont F s k 0)) with (map (fun _ : loc => @nil Z) (slocs s)); [exact R3|].
      apply (list_overk _ _ []); [rewrite map_length; apply slocs_len|]. intros k Hk. rewrite nth_nils. reflexivity.
    - assert (Hne : a_sinks a <> []).
      { intros X. rewrite X in Hsk. destruct Hsk as (L & _). rewrite slocs_len in L. cbn in L. unfold Kn in L. clear - L V1. lia. }
      exists (a_sinks a), w. destruct (a_sinks a) eqn:Es; [congruence|]. rewrite <- Es. split; [rewrite set_sinks_id; reflexivity|].
      split; [apply extends_refl|]. rewrite Es. exact Hsk. }
  destruct Hopen as (ss & w1 & R1 & R2 & R3).
  erewrite bind_ok by exact R1. cbv beta iota.
  set (a1 := set_sinks a ss) in *.
  rewrite (bind_ok getA _ (a1, w1) (a1, w1) a1) by reflexivity. cbv zeta.
  change (a_cfg a1) with (a_cfg a). rewrite Hc, Hds.
  unfold ds at 1. rewrite (number_of_shards_exact bpp d0 mids dy dx Hf Hs). fold NS. fold K.
  rewrite (bind_ok (liftM (Ok K)) _ (a1, w1) (a1, w1) K) by reflexivity.
  change (a_sinks a1) with ss.
  assert (Hss : zlen ss = K).
  { destruct R3 as (L & _). rewrite slocs_len in L. unfold zlen. rewrite L. unfold Kn. apply Z2Nat.id. lia. }
  rewrite Hss, Z.eqb_refl. cbn [expectM].
  rewrite (bind_ok (ret tt) _ (a1, w1) (a1, w1) tt) by reflexivity.
  change (a_bufs a1) with (a_bufs a).
  assert (Hbl : List.length (a_bufs a) = Z.to_nat nbuf).
  { rewrite Hb, map_length. pose proof (spec_chunks_len bpp d0 mids dy dx Hf F q) as L. unfold zlen in L. unfold schunks. fold nbuf in L. clear - L. lia. }
  rewrite Hbl.
  assert (Hcis : chunks_in_shards ds K (Z.to_nat nbuf) = Ok (overk mem)).
  { rewrite CNs. apply (chunks_in_shards_exact bpp d0 mids dy dx Hf Hs). }
  rewrite Hcis. rewrite (bind_ok (liftM (Ok (overk mem))) _ (a1, w1) (a1, w1) (overk mem)) by reflexivity.
  assert (Hroll : (if a_final a1 then ret true else liftM (should_rollover a1)) (a1, w1) = ((a1, w1), Ok tbl)).
  { rewrite should_rollover_v3 by auto. change (a_final a1) with (a_final a). change (a_frames a1) with (a_frames a).
    rewrite Htbl. destruct (a_final a); reflexivity. }
  erewrite bind_ok by exact Hroll.
  (* jobs *)
  assert (Hpay : forall k c, In c (mem k) -> nth c (a_bufs a) [] = pay F q c).
  { intros k c Hcm. rewrite Hb. pose proof (mem_lt k c Hcm) as X. rewrite <- (Nat2Z.id c) at 1. rewrite nth_map_enc by auto. reflexivity. }
  assert (Hbody : forall k, body (fun c => nth c (a_bufs a) []) (mem k) = body (pay F q) (mem k)).
  { intros k. apply body_ext. intros c Hcm. apply (Hpay k); auto. }
  destruct (v3_jobs_ok E HE (slocs s) ds (a_bufs a) slot CPS) with (roll := tbl) (cis := overk mem) (l := seq 0 Kn) (a := a1) (w := w1)
    (cs := overk (fun k => scont F s k r)) as (ss2 & w2 & T2 & O2 & cs2 & S1 & S2 & S3 & S4 & S5 & S6 & S7); auto.
  { apply qlocs_nodup; auto. }
  { lia. }
  { apply seq_NoDup. }
  { change (a_cfg a1) with (a_cfg a). rewrite Hc. auto. }
  { lia. }
  { intros k Hk. apply in_seq in Hk. assert (Hk' : (k < Kn)%nat) by lia.
    change (a_tables a1) with (a_tables a). change (a_offsets a1) with (a_offsets a). rewrite HT, HO, slocs_len, !overk_len.
    rewrite !nth_overk by auto. split; [auto|]. split; [auto|]. split; [auto|]. split; [auto|]. split; [apply stab_len|].
    split; [apply (members_nonempty bpp d0 mids dy dx Hf Hs); exact Hk'|].
    split.
    - rewrite Hbody. pose proof (scont_len F s k r). pose proof (body_bound F q k). pose proof (file_room r Hr). lia.
    - intros c Hcm. pose proof (mem_lt k c Hcm) as Hcb. split.
      + rewrite CNs in Hcb. exact (shard_internal_exact bpp d0 mids dy dx Hf Hs (Z.of_nat c) Hcb).
      + apply (slot_bound bpp d0 mids dy dx Hf Hs). rewrite CNs in Hcb. unfold Ns in Hcb. clear - Hcb. lia. }
  assert (HKn : Z.to_nat K = Kn) by reflexivity. rewrite HKn.
  erewrite bind_ok by exact S1.
  assert (Hnth : forall k, (k < Kn)%nat -> nth k T2 [] = stab F s k (S r) /\ nth k O2 0 = zlen (scont F s k (S r))
       /\ nth k cs2 [] = if tbl then sfile F s k (S r) else scont F s k (S r)).
  { intros k Hk. destruct (S6 k) as (X1 & X2 & X3); [apply in_seq; lia|].
    change (a_tables a1) with (a_tables a) in X1. rewrite HT in X1. rewrite !nth_overk in X1, X2, X3 by auto.
    assert (Y1 : nth k T2 [] = stab F s k (S r)).
    { rewrite X1, stab_S. fold q. rewrite nth_overk by auto. apply fill_ext. intros c Hcm. apply (Hpay k); auto. }
    rewrite Y1 in X3. rewrite Hbody in X2, X3. split; [auto|]. unfold sfile. rewrite scont_S. fold q. split; [exact X2|].
    rewrite X3. destruct tbl; [rewrite app_assoc; reflexivity|rewrite app_nil_r; reflexivity]. }
  assert (HT2 : T2 = overk (fun k => stab F s k (S r))).
  { apply (list_overk _ _ []); [rewrite S4; change (a_tables a1) with (a_tables a); rewrite HT; apply overk_len|]. intros k Hk. apply Hnth; auto. }
  assert (HO2 : O2 = overk (fun k => zlen (scont F s k (S r)))).
  { apply (list_overk _ _ 0); [rewrite S5; change (a_offsets a1) with (a_offsets a); rewrite HO; apply overk_len|]. intros k Hk. apply Hnth; auto. }
  assert (Hcs2 : cs2 = overk (fun k => if tbl then sfile F s k (S r) else scont F s k (S r))).
  { apply (list_overk _ _ []); [destruct S3 as (_ & -> & _); apply slocs_len|]. intros k Hk. apply Hnth; auto. }
  exists ss2, w2. split; [|split].
  - destruct tbl.
    + unfold bind, modA, ret. cbn [fst snd]. f_equal. f_equal. unfold upd3, a1.
      cbn [a_tables a_offsets set_offsets set_tables set_sinks]. rewrite HT2, HO2, !map_overk. unfold set_offsets, set_tables, set_sinks. cbn.
      f_equal. unfold overk. apply map_ext. intros k. rewrite stab_len. reflexivity.
    + unfold bind, ret. f_equal. f_equal. unfold upd3, a1. rewrite HT2, HO2. reflexivity.
  - eapply extends_trans; [exact R2|]. eapply extends_impl; [|exact S2]. intros e He. right. exact He.
  - rewrite <- Hcs2. exact S3.
Qed.

Lemma sfile_len F s k r : (r <= Z.to_nat S0)%nat -> 0 < zlen (sfile F s k r) < 2 ^ 64.
Proof.
  intros Hr. destruct v3_consts as (V0 & V1 & V2 & _). unfold sfile. rewrite zlen_app, table_bytes_len, stab_len.
  pose proof (scont_len F s k r) as X. split; [clear - X V2; lia|].
  assert (Y : Z.of_nat r * (nbuf * mxl) <= S0 * (nbuf * mxl)).
  { apply Z.mul_le_mono_nonneg_r; [pose proof (body_bound [] 0 0); lia|]. clear - Hr V0. lia. }
  pose proof Hfile as Z. clear - X Y Z. lia.
Qed.

(** array metadata after a flush *)
Lemma meta_phase a w (F : list (list Z)) old :
  a_cfg a = cfg -> a_v3 a = true -> a_frames a = zlen F -> zlen F < 2 ^ 32 -> ready true w ->
  meta_state E w (a_meta a) (mloc true) (option_map (D true t) old) -> (forall k, old = Some k -> 0 <= k <= zlen F) ->
  exists sk w', (ok <- write_array_metadata E ;; expectM ok "CHECK(write_array_metadata_())") (a, w) = ((set_meta a (Some sk), w'), Ok tt)
    /\ extends (mev (mloc true) (D true t (zlen F))) w w'
    /\ meta_state E w' (Some sk) (mloc true) (Some (D true t (zlen F))).
Proof.
  intros Hc Hv Hn Hn32 Hrdy Hmeta Hold. pose proof (zlen_nonneg F) as HF0.
  assert (Hpath : metadata_path a = join_path root (meta_comps true level)).
  { rewrite metadata_path_join, Hc, Hv. reflexivity. }
  destruct (write_array_metadata_ok E HE a w d0 mids dy dx t old) as (sk & w4 & M1 & M2 & M3).
  { rewrite Hc. exact Hds. }
  { apply (inner_mids _ _ _ _ _ Hf). }
  { rewrite Hn. lia. }
  { rewrite Hc, Hv. exact Ht. }
  { rewrite Hpath, Hc. apply where_meta; auto. }
  { rewrite Hc, Hv, Hn. intros X. apply Hdoc; auto. }
  { rewrite Hpath, Hc, Hv. exact Hmeta. }
  { rewrite Hn. exact Hold. }
  rewrite Hpath, Hc, Hv, Hn in M2, M3. fold bk in M2, M3. fold (mloc true) in M2, M3. fold ds A in M2, M3. fold (D true t (zlen F)) in M2, M3.
  exists sk, w4. split; [|auto]. erewrite bind_ok by exact M1. reflexivity.
Qed.

Lemma flush_v3_ok a w F s r old :
  let q := s * S0 + Z.of_nat r in
  let roll := zlen F mod PP =? 0 in
  let tbl := a_final a || roll in
  a_cfg a = cfg -> a_v3 a = true -> a_frames a = zlen F -> zlen F < 2 ^ 32 -> a_append a = s -> 0 <= s < 2 ^ 32 - 1 ->
  (r < Z.to_nat S0)%nat -> ready true w -> sinks_at a w F s r ->
  a_tables a = overk (fun k => stab F s k r) -> a_offsets a = overk (fun k => zlen (scont F s k r)) ->
  a_bufs a = schunks F q -> a_toflush a <> 0 -> zlen F <= (q + 1) * P ->
  meta_state E w (a_meta a) (mloc true) (option_map (D true t) old) -> (forall k, old = Some k -> 0 <= k <= zlen F) ->
  exists a' w', flush E (a, w) = ((a', w'), Ok tt)
    /\ (a_cfg a' = cfg /\ a_v3 a' = true /\ a_frames a' = zlen F /\ a_final a' = a_final a /\ a_toflush a' = 0
        /\ a_bufs a' = schunks F (q + 1) /\ a_append a' = (if roll then s + 1 else s)
        /\ a_tables a' = overk (fun k => if tbl then zrep max64 (2 * CPS) else stab F s k (S r))
        /\ a_offsets a' = overk (fun k => if tbl then 0 else zlen (scont F s k (S r))))
    /\ extends (qev true NS s) w w'
    /\ (if roll then a_sinks a' = [] /\ forall k, (k < Kn)%nat -> content E (w_trace w') (sloc s k) = Some (sfile F s k (S r))
        else sinks_hold E w' (a_sinks a') (slocs s) (overk (fun k => if tbl then sfile F s k (S r) else scont F s k (S r))))
    /\ meta_state E w' (a_meta a') (mloc true) (option_map (D true t) (if tbl then Some (zlen F) else old))
    /\ (exists w1, extends (dev true NS s) w w1 /\ (roll = true -> forall k, (k < Kn)%nat -> closed (w_trace w1) (sloc s k))
          /\ (if tbl then extends (mev (mloc true) (D true t (zlen F))) w1 w' else w' = w1)).
Proof.
  intros q roll tbl Hc Hv Hn Hn32 Hap Hs0 Hr Hrdy Hsk HT HO Hb Hfl HFq Hmeta Hold.
  destruct consts as (CP & CN & CB & CF & CE & CA & CNs). destruct v3_consts as (V0 & V1 & V2 & V3 & V4 & V5). pose proof (zlen_nonneg F) as HF0.
  unfold flush. rewrite (bind_ok getA _ (a, w) (a, w) a) by reflexivity.
  rewrite (proj2 (Z.eqb_neq _ _) Hfl).
  (* compression *)
  set (a1 := set_bufs a (map enc (schunks F q))).
  assert (H1 : compress_buffers E (a, w) = ((a1, w), Ok tt)).
  { unfold a1. rewrite <- Hb. apply (compress_buffers_ok E a w bpp B enc mxl).
    - rewrite Hc. exact Henc.
    - rewrite Hc. exact Hbpp.
    - rewrite Hb. apply schunks_B. }
  erewrite bind_ok by exact H1.
  destruct (flush_impl_v3_ok a1 w F s r tbl) as (ss & w1 & R1 & R2 & R3); auto; [apply Hs0| |].
  { change (a_frames a1) with (a_frames a). rewrite Hn. reflexivity. }
  erewrite bind_ok by exact R1. cbn [expectM].
  set (T1 := overk (fun k => if tbl then zrep max64 (2 * CPS) else stab F s k (S r))) in *.
  set (O1 := overk (fun k => if tbl then 0 else zlen (scont F s k (S r)))) in *.
  set (cs := overk (fun k => if tbl then sfile F s k (S r) else scont F s k (S r))) in *.
  set (a2 := upd3 a1 ss T1 O1) in *.
  rewrite (bind_ok (ret tt) _ (a2, w1) (a2, w1) tt) by reflexivity.
  rewrite (bind_ok getA _ (a2, w1) (a2, w1) a2) by reflexivity.
  rewrite should_rollover_v3 by auto. change (a_frames a2) with (a_frames a). rewrite Hn. fold roll.
  rewrite (bind_ok (liftM (Ok roll)) _ (a2, w1) (a2, w1) roll) by reflexivity.
  assert (Hm2 : (1 <= List.length NS)%nat) by (rewrite V5; lia).
  assert (Hsnd : NoDup (slocs s)) by (apply qlocs_nodup; auto).
  (* rollover *)
  assert (Hro : exists w2, (if roll then rollover E else ret tt) (a2, w1)
       = ((if roll then set_append (set_sinks a2 []) (s + 1) else a2, w2), Ok tt)
     /\ extends (dev true NS s) w1 w2
     /\ (if roll then forall k, (k < Kn)%nat -> content E (w_trace w2) (sloc s k) = Some (sfile F s k (S r))
         else sinks_hold E w2 ss (slocs s) cs)
     /\ (roll = true -> forall k, (k < Kn)%nat -> closed (w_trace w2) (sloc s k))).
  { destruct roll eqn:Er.
    - assert (Etb : tbl = true) by (unfold tbl; rewrite orb_true_r; auto).
      destruct (close_sinks_ok E HE a2 w1 (slocs s) cs R3 Hsnd) as (w2 & U1 & U2 & U3 & U4).
      { rewrite slocs_len. intros k Hk. unfold cs. rewrite nth_overk by auto. rewrite Etb.
        pose proof (sfile_len F s k (S r) Hr) as X. split; [lia|]. left. intros Y. rewrite Y in X. change (zlen []) with 0 in X. lia. }
      exists w2. split; [|split; [|split]].
      + unfold rollover. erewrite bind_ok by exact U1. unfold modA. cbn [fst snd]. f_equal. f_equal.
        change (a_append (set_sinks a2 [])) with (a_append a). rewrite Hap. rewrite u32_id by lia. reflexivity.
      + eapply extends_impl; [|exact U2]. intros; right; auto.
      + intros k Hk. rewrite <- slocs_nth by auto. rewrite U3 by (rewrite slocs_len; auto). unfold cs. rewrite nth_overk by auto.
        rewrite Etb. reflexivity.
      + intros _ k Hk. rewrite <- slocs_nth by auto. apply U4. rewrite slocs_len. auto.
    - exists w1. split; [reflexivity|]. split; [apply extends_refl|]. split; [exact R3|discriminate]. }
  destruct Hro as (w2 & H4 & R4 & R5 & R6). erewrite bind_ok by exact H4.
  set (a4 := if roll then set_append (set_sinks a2 []) (s + 1) else a2) in *.
  assert (Q4 : a_cfg a4 = cfg /\ a_v3 a4 = true /\ a_frames a4 = zlen F /\ a_final a4 = a_final a /\ a_meta a4 = a_meta a
      /\ a_append a4 = (if roll then s + 1 else s) /\ a_tables a4 = T1 /\ a_offsets a4 = O1
      /\ a_sinks a4 = if roll then [] else ss).
  { unfold a4, a2, upd3. destruct roll; cbn; repeat split; auto. }
  clearbody a4. destruct Q4 as (Q1 & Q2 & Q3 & Q4 & Q5 & Q6 & Q7 & Q8 & Q9).
  rewrite (bind_ok getA _ (a4, w2) (a4, w2) a4) by reflexivity.
  rewrite Q4. replace (roll || a_final a) with tbl by (unfold tbl; apply orb_comm).
  assert (Hx : extends (dev true NS s) w w2) by (eapply extends_trans; eauto).
  assert (Hrdy2 : ready true w2).
  { apply (ready_ext true level w w2); auto. eapply extends_impl; [|exact Hx]. intros e He.
    apply (qev_level true NS s); auto; [lia|apply dev_qev; auto]. }
  assert (Hmeta2 : meta_state E w2 (a_meta a4) (mloc true) (option_map (D true t) old)).
  { rewrite Q5. eapply meta_state_ext; [exact Hx| |exact Hmeta]. intros e. apply dev_not_meta; auto. lia. }
  (* metadata *)
  assert (Hme : exists m' w3, (if tbl then ok <- write_array_metadata E ;; expectM ok "CHECK(write_array_metadata_())" else ret tt) (a4, w2)
        = ((set_meta a4 m', w3), Ok tt)
      /\ (if tbl then extends (mev (mloc true) (D true t (zlen F))) w2 w3 else w3 = w2)
      /\ meta_state E w3 m' (mloc true) (option_map (D true t) (if tbl then Some (zlen F) else old))).
  { destruct tbl.
    - destruct (meta_phase a4 w2 F old) as (sk & w3 & M1 & M2 & M3); auto. eauto.
    - exists (a_meta a4), w2. split; [destruct a4; reflexivity|]. split; [reflexivity|auto]. }
  destruct Hme as (m' & w3 & M1 & M2' & M3).
  assert (M2 : extends (fun e => is_mkdir e \/ only (mloc true) e) w2 w3).
  { destruct tbl; [eapply extends_impl; [|exact M2']; apply mev_only|subst w3; apply extends_refl]. }
  erewrite bind_ok by exact M1.
  set (a5 := set_meta a4 m') in *.
  rewrite (bind_ok getA _ (a5, w3) (a5, w3) a5) by reflexivity.
  rewrite (make_buffers_ok a5 F (q + 1)); [|exact Q1|unfold q; clear - Hs0 V0; nia|exact HFq].
  erewrite bind_ok by reflexivity.
  assert (Hnm : forall e l, is_mkdir e \/ only (mloc true) e -> In l (slocs s) -> ~ affects l e).
  { intros e l [He|He] Hl; [apply mkdir_affects; auto|]. intros Ha. pose proof (only_affects _ _ _ He Ha) as X.
    apply (mloc_not_q true NS s); auto; [lia|]. rewrite <- X. exact Hl. }
  exists (set_toflush (set_bufs a5 (schunks F (q + 1))) 0), w3.
  split; [reflexivity|]. split; [cbn; repeat split; auto|]. split; [|split; [|split; [exact M3|exists w2; auto]]].
  - eapply extends_trans; [eapply extends_impl; [|exact Hx]; intros; apply dev_qev; auto|].
    eapply extends_impl; [|exact M2]. intros e [He|He]; [left; auto|right; exists (mloc true); split; [left; auto|auto]].
  - cbn [a_sinks set_toflush set_bufs a5 set_meta]. rewrite Q9. destruct roll.
    + split; [reflexivity|]. intros k Hk. rewrite (extends_content E _ _ _ _ M2); [apply R5; auto|].
      intros e He. apply (Hnm e); auto. rewrite <- slocs_nth by auto. apply nth_In. rewrite slocs_len. auto.
    + eapply sinks_hold_ext; [exact M2| |exact R5]. intros e l He Hl. apply Hnm; auto.
Qed.

(** ** the invariant *)
Definition sE (F : list (list Z)) : Z := zlen F / PP.
Definition rE (F : list (list Z)) : nat := Z.to_nat ((zlen F / P) mod S0).
Definition last_meta3 (n : Z) : option Z := if n <? PP then None else Some (n / PP * PP).

(** a document declaring [k] frames needs the shards that are then full *)
Definition need3 (k : Z) (l : loc) : Prop := exists s j, 0 <= s /\ (s + 1) * PP <= k /\ (j < Kn)%nat /\ l = sloc s j.
Definition safe3 : Z -> list event -> Prop := safe E (mloc true) (D true t) need3.

Record inv3 (F : list (list Z)) (a : writer) (w : world) : Prop := {
  i3_cfg : a_cfg a = cfg; i3_v3 : a_v3 a = true; i3_fin : a_final a = false;
  i3_n : a_frames a = zlen F; i3_lt : zlen F < 2 ^ 32;
  i3_s : a_append a = sE F;
  i3_sinks : sinks_at a w F (sE F) (rE F);
  i3_tab : a_tables a = overk (fun k => stab F (sE F) k (rE F));
  i3_off : a_offsets a = overk (fun k => zlen (scont F (sE F) k (rE F)));
  i3_bufs : bufs_ok F (zlen F / P) (a_bufs a);
  i3_fl : a_toflush a = zlen F mod P * fb;
  i3_st : forall s k, 0 <= s < sE F -> (k < Kn)%nat -> content E (w_trace w) (sloc s k) = Some (sfile F s k (Z.to_nat S0));
  i3_rdy : ready true w;
  i3_meta : meta_state E w (a_meta a) (mloc true) (option_map (D true t) (last_meta3 (zlen F)));
  i3_cl : forall s k, 0 <= s < sE F -> (k < Kn)%nat -> closed (w_trace w) (sloc s k);
  i3_safe : bk = None -> safe3 (zlen F) (w_trace w)
}.

Lemma epochs (F : list (list Z)) : 0 <= sE F /\ (rE F < Z.to_nat S0)%nat /\ zlen F / P = sE F * S0 + Z.of_nat (rE F)
  /\ (sE F * S0 + Z.of_nat (rE F)) * P <= zlen F < (sE F * S0 + Z.of_nat (rE F) + 1) * P /\ sE F <= zlen F / P /\ zlen F / P <= zlen F.
Proof.
  destruct consts as (CP & _). destruct v3_consts as (V0 & _ & _ & V3 & _). pose proof (zlen_nonneg F) as HF.
  assert (E1 : sE F = zlen F / P / S0) by (unfold sE, PP; rewrite Z.div_div by lia; reflexivity).
  pose proof (Z.mod_pos_bound (zlen F / P) S0 V0) as Hm. pose proof (Z.div_mod (zlen F / P) S0 ltac:(lia)) as Hd.
  pose proof (Z.div_mod (zlen F) P ltac:(lia)) as Hd2. pose proof (Z.mod_pos_bound (zlen F) P ltac:(lia)) as Hm2.
  assert (Hq : 0 <= zlen F / P) by (apply Z.div_pos; lia).
  assert (Er : Z.of_nat (rE F) = (zlen F / P) mod S0) by (unfold rE; rewrite Z2Nat.id; lia).
  rewrite Er, E1. split; [apply Z.div_pos; lia|]. split; [unfold rE; lia|].
  assert (Eq : zlen F / P / S0 * S0 + (zlen F / P) mod S0 = zlen F / P) by lia.
  split; [lia|]. rewrite Eq. split; [split; [clear - Hd2 Hm2; lia|clear - Hd2 Hm2; lia]|].
  split; [apply Z.div_le_upper_bound; [lia|]; clear - V0 Hq; nia|apply Z.div_le_upper_bound; [lia|]; clear - CP HF; nia].
Qed.

(** adding a frame: epoch change or not *)
Lemma mod_PP n : n mod P = 0 -> (n mod PP =? 0) = ((n / P) mod S0 =? 0).
Proof.
  intros H. destruct consts as (CP & _). destruct v3_consts as (V0 & _ & _ & V3 & _).
  unfold PP. rewrite Z.rem_mul_r by lia. rewrite H, Z.add_0_l.
  pose proof (Z.mod_pos_bound (n / P) S0 V0) as X. destruct (Z.eqb_spec ((n / P) mod S0) 0) as [->|Hne].
  - rewrite Z.mul_0_r. reflexivity.
  - apply Z.eqb_neq. apply Z.neq_mul_0. lia.
Qed.

Lemma sinks_at_stable a w F F' s r : 0 <= s -> (s * S0 + Z.of_nat r) * P <= zlen F -> sinks_at a w F s r -> sinks_at a w (F ++ F') s r.
Proof.
  intros H1 H2 H. unfold sinks_at in *. destruct (Nat.eqb r 0); auto.
  replace (overk (fun k => scont (F ++ F') s k r)) with (overk (fun k => scont F s k r)); auto.
  unfold overk. apply map_ext. intros k. symmetry. apply scont_stable; auto.
Qed.

Lemma sloc_in s k : (k < Kn)%nat -> In (sloc s k) (slocs s).
Proof. intros H. rewrite <- slocs_nth by auto. apply nth_In. rewrite slocs_len. auto. Qed.
Lemma sloc_own s k : 0 <= s -> (k < Kn)%nat -> exists p, sloc s k = mkloc bk p /\ own true root m level p.
Proof.
  intros Hs0 Hk. destruct v3_consts as (_ & _ & _ & _ & V4 & V5). apply (qlocs_own true NS s); auto. apply sloc_in; auto.
Qed.
Lemma qev_not_sloc s s' k e : 0 <= s -> 0 <= s' -> s <> s' -> (k < Kn)%nat -> qev true NS s e -> ~ affects (sloc s' k) e.
Proof.
  destruct v3_consts as (_ & _ & _ & _ & V4 & V5).
  intros Hq Hq' Hne Hc [H|(l & [<-|H1] & H2)]; [apply mkdir_affects; auto| |]; intros Ha; pose proof (only_affects _ _ _ H2 Ha) as X.
  - apply (mloc_not_q true NS s'); auto; [rewrite V5; lia|]. rewrite <- X. apply sloc_in; auto.
  - apply Hne. apply (qlocs_disjoint true NS s NS s' l); auto. rewrite <- X. apply sloc_in; auto.
Qed.

Lemma D_mono3 k k' : 0 <= k <= k' -> zlen (D true t k) <= zlen (D true t k').
Proof.
  intros H. destruct consts as (_ & _ & _ & _ & _ & CA & _). unfold D. apply doc_len_mono.
  split; [apply ceil_div_nonneg; lia|apply ceil_div_mono; lia].
Qed.
Lemma need3_own k l : need3 k l -> exists p, l = mkloc bk p /\ own true root m level p.
Proof. intros (s & j & H1 & H2 & H3 & ->). apply sloc_own; auto. Qed.
Lemma need3_below N s k l e : 0 <= s -> k <= N -> N < (s + 1) * PP -> need3 k l -> qev true NS s e -> ~ affects l e.
Proof.
  intros Hs0 Hk HN (s' & j & H1 & H2 & H3 & ->) He. destruct v3_consts as (_ & _ & _ & V3 & _).
  apply (qev_not_sloc s s'); auto. intros ->. lia.
Qed.

(** one flush keeps the order *)
Lemma flush_safe3 (F : list (list Z)) N s w w' (tbl roll : bool) :
  bk = None -> 0 <= s -> 0 <= N -> N <= zlen F -> N < (s + 1) * PP -> zlen F <= (s + 1) * PP -> (zlen F = (s + 1) * PP -> roll = true) ->
  (forall s' k, 0 <= s' < s -> (k < Kn)%nat -> closed (w_trace w) (sloc s' k)) ->
  safe3 N (w_trace w) ->
  (exists w1, extends (dev true NS s) w w1 /\ (roll = true -> forall k, (k < Kn)%nat -> closed (w_trace w1) (sloc s k))
          /\ (if tbl then extends (mev (mloc true) (D true t (zlen F))) w1 w' else w' = w1)) ->
  safe3 (zlen F) (w_trace w').
Proof.
  intros Hb Hs0 HN0 HNF HN HF Hroll Hcl Hsafe (w1 & X1 & C1 & X2). destruct v3_consts as (_ & _ & _ & V3 & V4 & V5).
  assert (Hm2 : (1 <= List.length NS)%nat) by (rewrite V5; lia).
  assert (S1 : safe3 N (w_trace w1)).
  { eapply safe_ext; [exact Hsafe|exact X1| |].
    - intros e He. left. apply (dev_not_meta true NS s); auto.
    - intros k l e Hk Hl He. apply (need3_below N s k); auto; [lia|apply dev_qev; auto]. }
  destruct tbl; [|subst w'; eapply safe_weaken; [|exact S1]; lia].
  eapply safe_meta with (N := N) (w := w1); [unfold mloc; rewrite Hb; reflexivity|exact S1|exact X2|lia| | |].
  - intros k Hk. apply D_mono3. lia.
  - intros k l Hk (s' & j & N1 & N2 & N3 & ->). exists s', j. repeat split; auto; lia.
  - intros l (s' & j & N1 & N2 & N3 & ->). split.
    + intros X. apply (mloc_not_q true NS s'); auto. rewrite <- X. apply sloc_in; auto.
    + assert (H : s' <= s). { assert (H : (s' + 1) * PP <= (s + 1) * PP) by lia. apply Z.mul_le_mono_pos_r in H; lia. }
      destruct (Z.eq_dec s' s) as [->|Hne]; [apply C1; auto; apply Hroll; lia|].
      eapply extends_closed; [exact X1| |apply Hcl; auto; lia]. intros e He. apply (qev_not_sloc s s'); auto; apply dev_qev; auto.
Qed.

Lemma inv3_ext F a w w' (Q : event -> Prop) :
  extends Q w w' -> (forall e p, Q e -> own true root m level p -> ~ affects (mkloc bk p) e) -> ready true w' ->
  inv3 F a w -> inv3 F a w'.
Proof.
  intros Hx HQ Hr [I1 I2 I3 I4 I5 I6 I7 I8 I9 I10 I11 I12 I13 I14 I15 I16]. destruct (epochs F) as (E1 & E2 & _).
  destruct v3_consts as (_ & _ & _ & _ & V4 & V5). constructor; auto.
  - unfold sinks_at in *. destruct (Nat.eqb (rE F) 0); auto. eapply sinks_hold_ext; eauto.
    intros e l He Hl. destruct (qlocs_own true NS (sE F) l V4 V5 E1 Hl) as (p & -> & Hp). apply HQ; auto.
  - intros s k Hsk Hk. rewrite (extends_content E _ _ _ _ Hx); auto.
    destruct (sloc_own s k) as (p & -> & Hp); [lia|auto|]. intros e He. apply HQ; auto.
  - eapply meta_state_ext; eauto. destruct (mloc_own true) as (p & -> & Hp). intros e He. apply HQ; auto.
  - intros s k Hsk Hk. eapply extends_closed; [exact Hx| |auto].
    destruct (sloc_own s k) as (p & -> & Hp); [lia|auto|]. intros e He. apply HQ; auto.
  - intros Hb. eapply safe_ext; [exact (I16 Hb)|exact Hx| |].
    + intros e He. left. destruct (mloc_own true) as (p & -> & Hp). apply HQ; auto.
    + intros k l e _ Hl He. destruct (need3_own k l Hl) as (p & -> & Hp). apply HQ; auto.
Qed.

Lemma zrep_overk {X} (x : X) : zrep x K = overk (fun _ => x).
Proof. unfold zrep, overk, Kn. generalize (Z.to_nat K). intros n. generalize O. induction n; intros o; simpl; auto. f_equal; auto. Qed.

Lemma inv3_init w : ready true w -> (bk = None -> content E (w_trace w) (mloc true) = None) ->
  exists a, make_writer true cfg = Ok a /\ inv3 [] a w.
Proof.
  intros Hr Hfr. destruct consts as (CP & _). destruct v3_consts as (V0 & V1 & V2 & V3 & V4 & V5).
  assert (Es : sE [] = 0) by (apply Z.div_0_l; lia).
  assert (Er : rE [] = O). { unfold rE. change (zlen []) with 0. rewrite Z.div_0_l, Z.mod_0_l by lia. reflexivity. }
  unfold make_writer. rewrite Hds. unfold ds at 1. rewrite (number_of_shards_exact bpp d0 mids dy dx Hf Hs). cbn [obind]. fold NS. fold K.
  unfold ds at 1. rewrite (chunks_per_shard_exact d0 mids dy dx Hs). fold ds CPS. rewrite u32_id by lia.
  eexists. split; [reflexivity|]. constructor; cbn [a_cfg a_v3 a_final a_frames a_append a_sinks a_tables a_offsets a_bufs a_toflush a_meta]; auto.
  - change (zlen []) with 0. lia.
  - unfold sinks_at. rewrite Er. reflexivity.
  - rewrite Er, zrep_overk. reflexivity.
  - rewrite Er, zrep_overk. reflexivity.
  - left; auto.
  - intros s k Hsk. rewrite Es in Hsk. lia.
  - unfold last_meta3. change (zlen []) with 0. rewrite (proj2 (Z.ltb_lt 0 PP)) by lia. cbn. auto.
  - intros s k Hsk. rewrite Es in Hsk. lia.
  - intros Hb. eapply safe_init; [unfold mloc; rewrite Hb; reflexivity|auto].
Qed.

Theorem write_frame_v3 F a w data :
  inv3 F a w -> zlen data = fb -> zlen F + 1 < 2 ^ 32 ->
  exists a' w', write_frame E data (a, w) = ((a', w'), Ok fb) /\ inv3 (F ++ [data]) a' w'
    /\ extends (level_ev true root m bk level) w w'.
Proof.
  intros [I1 I2 I3 I4 I5 I6 I7 I8 I9 I10 I11 I12 I13 I14 I15 I16] Hd Hlt. destruct consts as (CP & CN & CB & CF & CE & CA & CNs).
  destruct v3_consts as (V0 & V1 & V2 & V3 & V4 & V5). destruct (epochs F) as (E1 & E2 & E3 & E4 & E5 & E6).
  pose proof (zlen_nonneg F) as HF0.
  rewrite (write_frame_prefix a w F data I1 I4 Hlt I10 I11 Hd).
  assert (HL : zlen (F ++ [data]) = zlen F + 1) by (rewrite zlen_app; reflexivity).
  set (a1 := after_frame _ _ _ _). set (F' := F ++ [data]) in *.
  set (s := sE F) in *. set (r := rE F) in *.
  assert (Hq0 : 0 <= zlen F / P) by (apply Z.div_pos; lia).
  destruct (Z.eqb_spec ((zlen F + 1) mod P) 0) as [Hz|Hz].
  - destruct (div_succ _ HF0 Hz) as (D1 & D2 & D3).
    assert (Hrs : (zlen F' mod PP =? 0) = Nat.eqb (S r) (Z.to_nat S0)).
    { rewrite HL, mod_PP by auto. rewrite D1, E3.
      replace (s * S0 + Z.of_nat r + 1) with (Z.of_nat (S r) + s * S0) by lia. rewrite Z_mod_plus_full.
      destruct (Nat.eqb_spec (S r) (Z.to_nat S0)) as [Hx|Hx].
      - apply Z.eqb_eq. replace (Z.of_nat (S r)) with S0 by lia. apply Z.mod_same. lia.
      - rewrite Z.mod_small by lia. apply Z.eqb_neq. lia. }
    assert (HsE : sE F' = if Nat.eqb (S r) (Z.to_nat S0) then s + 1 else s).
    { unfold sE, PP. rewrite <- Z.div_div by lia. rewrite HL, D1, E3.
      replace (s * S0 + Z.of_nat r + 1) with (s * S0 + Z.of_nat (S r)) by lia. rewrite Z.div_add_l by lia.
      destruct (Nat.eqb_spec (S r) (Z.to_nat S0)) as [Hx|Hx].
      - replace (Z.of_nat (S r)) with S0 by lia. rewrite Z.div_same by lia. reflexivity.
      - rewrite Z.div_small by lia. lia. }
    assert (HrE : rE F' = if Nat.eqb (S r) (Z.to_nat S0) then O else S r).
    { unfold rE. rewrite HL, D1, E3. replace (s * S0 + Z.of_nat r + 1) with (Z.of_nat (S r) + s * S0) by lia. rewrite Z_mod_plus_full.
      destruct (Nat.eqb_spec (S r) (Z.to_nat S0)) as [Hx|Hx].
      - replace (Z.of_nat (S r)) with S0 by lia. rewrite Z.mod_same by lia. reflexivity.
      - rewrite Z.mod_small by lia. lia. }
    destruct (flush_v3_ok a1 w F' s r (last_meta3 (zlen F))) as (a' & w' & R1 & (Q1 & Q2 & Q3 & Q4 & Q5 & Q6 & Q7 & Q8 & Q9) & R2 & R3 & R4 & R5); auto.
    + rewrite HL. exact Hlt.
    + clear - E1 E5 E6 Hlt. lia.
    + apply sinks_at_stable; auto. apply E4.
    + cbn [a1 after_frame set_frames set_toflush set_bufs a_tables]. rewrite I8. unfold overk. apply map_ext. intros k.
      symmetry. apply stab_stable; auto. apply E4.
    + cbn [a1 after_frame set_frames set_toflush set_bufs a_offsets]. rewrite I9. unfold overk. apply map_ext. intros k.
      symmetry. f_equal. apply scont_stable; auto. apply E4.
    + cbn. fold s r. rewrite <- E3. reflexivity.
    + cbn. rewrite D3. apply Z.neq_mul_0. lia.
    + fold s r. rewrite <- E3, D2. lia.
    + intros k Hk. unfold last_meta3 in Hk. destruct (zlen F <? PP); [discriminate|]. inversion Hk; subst k.
      pose proof (Z.mul_div_le (zlen F) PP ltac:(lia)). split; [apply Z.mul_nonneg_nonneg; [exact E1|lia]|lia].
    + rewrite Hrs in Q7, Q8, Q9, R3, R4, R5. change (a_final a1) with (a_final a) in Q4, Q8, Q9, R3, R4, R5. rewrite I3 in Q4, Q8, Q9, R3, R4, R5. cbn [orb] in Q8, Q9, R3, R4, R5.
      unfold bind. rewrite R1. do 2 eexists. split; [reflexivity|].
      assert (Hx : extends (level_ev true root m bk level) w w').
      { eapply extends_impl; [|exact R2]. intros e He. apply (qev_level true NS s); auto. }
      split; [|exact Hx].
      assert (Hold : forall s' k, 0 <= s' < s -> (k < Kn)%nat -> content E (w_trace w') (sloc s' k) = Some (sfile F' s' k (Z.to_nat S0))).
      { intros s' k Hs' Hk. rewrite (extends_content E _ _ _ _ R2) by (intros e; apply qev_not_sloc; auto; lia).
        rewrite I12 by auto. f_equal. symmetry. apply sfile_stable; [lia|]. rewrite Z2Nat.id by lia.
        eapply Z.le_trans; [|apply E4]. apply Z.mul_le_mono_nonneg_r; [lia|].
        assert ((s' + 1) * S0 <= s * S0) by (apply Z.mul_le_mono_nonneg_r; lia). lia. }
      constructor; auto; try (rewrite ?HsE, ?HrE).
      * rewrite HL. exact Hlt.
      * exact Q7.
      * destruct (Nat.eqb_spec (S r) (Z.to_nat S0)) as [Hx1|Hx1].
        -- unfold sinks_at. cbn [Nat.eqb]. apply R3.
        -- unfold sinks_at. cbn [Nat.eqb]. exact R3.
      * destruct (Nat.eqb (S r) (Z.to_nat S0)); exact Q8.
      * destruct (Nat.eqb (S r) (Z.to_nat S0)); exact Q9.
      * right. rewrite Q6, HL, D1, <- E3. reflexivity.
      * rewrite Q5, HL, Hz. lia.
      * intros s' k Hs' Hk. destruct (Nat.eqb_spec (S r) (Z.to_nat S0)) as [Hx1|Hx1].
        -- destruct (Z.eq_dec s' s) as [->|Hne]; [|apply Hold; auto; lia]. rewrite <- Hx1. apply R3; auto.
        -- apply Hold; auto.
      * apply (ready_ext true level w w'); auto.
      * replace (last_meta3 (zlen F')) with (if Nat.eqb (S r) (Z.to_nat S0) then Some (zlen F') else last_meta3 (zlen F)); [exact R4|].
        unfold last_meta3. fold (sE F'). fold (sE F). rewrite HsE. fold s.
        assert (EPP : PP = P * S0) by reflexivity.
        destruct (Nat.eqb_spec (S r) (Z.to_nat S0)) as [Hx1|Hx1].
        -- assert (X : zlen F' = (s + 1) * PP).
           { rewrite HL, <- D2, E3. replace (s * S0 + Z.of_nat r + 1) with ((s + 1) * S0) by lia. rewrite EPP. ring. }
           assert (PP <= zlen F') by (rewrite X; clear - E1 V3; nia).
           rewrite (proj2 (Z.ltb_ge _ _)) by auto. rewrite X. reflexivity.
        -- assert (Y : s = 0 \/ 0 < s) by lia. destruct Y as [Y|Y].
           ++ assert (zlen F' < PP).
              { rewrite HL, <- D2, E3, Y, EPP. rewrite Z.mul_0_l, Z.add_0_l, (Z.mul_comm P S0). apply Z.mul_lt_mono_pos_r; [lia|]. clear - E2 Hx1. lia. }
              rewrite !(proj2 (Z.ltb_lt _ _)) by lia. reflexivity.
           ++ assert (PP <= zlen F).
              { eapply Z.le_trans; [|apply E4]. rewrite EPP, (Z.mul_comm P S0). apply Z.mul_le_mono_nonneg_r; [lia|]. clear - Y V0. nia. }
              rewrite !(proj2 (Z.ltb_ge _ _)) by lia. reflexivity.
      * destruct R5 as (w1 & Y1 & Y2 & Y3). intros s' k Hs' Hk.
        assert (Hcm : closed (w_trace w1) (sloc s' k) -> closed (w_trace w') (sloc s' k)).
        { destruct (Nat.eqb (S r) (Z.to_nat S0)); [|subst w'; auto]. intros Hcl. eapply extends_closed; [exact Y3| |exact Hcl].
          intros e He Ha. apply mev_only in He as [He|He]; [eapply mkdir_affects; eauto|]. pose proof (only_affects _ _ _ He Ha) as X.
          apply (mloc_not_q true NS s'); auto; [rewrite V5; lia|lia|]. rewrite <- X. apply sloc_in; auto. }
        apply Hcm. destruct (Z.eq_dec s' s) as [->|Hne].
        -- destruct (Nat.eqb (S r) (Z.to_nat S0)); [apply Y2; auto|lia].
        -- assert (s' < s) by (destruct (Nat.eqb (S r) (Z.to_nat S0)); lia).
           eapply extends_closed; [exact Y1| |apply I15; auto; lia]. intros e He. apply (qev_not_sloc s s'); auto; [lia|apply dev_qev; auto].
      * intros Hbk. assert (EPP : PP = P * S0) by reflexivity.
        assert (Hlow : zlen F' <= (s + 1) * PP).
        { rewrite HL, <- D2, E3, EPP. replace ((s + 1) * (P * S0)) with ((s * S0 + S0) * P) by ring. apply Z.mul_le_mono_nonneg_r; [lia|]. clear - E2 V0. lia. }
        apply (flush_safe3 F' (zlen F) s w w' (Nat.eqb (S r) (Z.to_nat S0)) (Nat.eqb (S r) (Z.to_nat S0))); auto; try lia.
        intros X. apply Nat.eqb_eq. rewrite HL, <- D2, E3, EPP in X. replace ((s + 1) * (P * S0)) with ((s * S0 + S0) * P) in X by ring.
        apply Z.mul_cancel_r in X; [clear - X V0; lia|lia].
  - destruct (div_same _ HF0 Hz) as (D1 & D2).
    assert (HsE : sE F' = s) by (unfold s, sE, PP; rewrite <- !Z.div_div by lia; rewrite HL, D1; reflexivity).
    assert (HrE : rE F' = r) by (unfold r, rE; rewrite HL, D1; reflexivity).
    unfold bind, ret. do 2 eexists. split; [reflexivity|]. split; [|apply extends_refl].
    constructor; rewrite ?HsE, ?HrE; auto.
    + rewrite HL. auto.
    + apply sinks_at_stable; auto. apply E4.
    + cbn [a1 after_frame set_frames set_toflush set_bufs a_tables]. rewrite I8. unfold overk. apply map_ext. intros k.
      symmetry. apply stab_stable; auto. apply E4.
    + cbn [a1 after_frame set_frames set_toflush set_bufs a_offsets]. rewrite I9. unfold overk. apply map_ext. intros k.
      symmetry. f_equal. apply scont_stable; auto. apply E4.
    + right. rewrite HL, D1. reflexivity.
    + cbn [a1 after_frame set_frames set_toflush set_bufs a_toflush]. rewrite HL, D2. reflexivity.
    + intros s' k Hs' Hk. rewrite I12 by auto. f_equal. symmetry. apply sfile_stable; [lia|]. rewrite Z2Nat.id by lia.
      eapply Z.le_trans; [|apply E4]. apply Z.mul_le_mono_nonneg_r; [lia|].
      assert ((s' + 1) * S0 <= s * S0) by (apply Z.mul_le_mono_nonneg_r; lia). lia.
    + cbn [a1 after_frame set_frames set_toflush set_bufs a_meta].
      replace (last_meta3 (zlen F')) with (last_meta3 (zlen F)); [exact I14|].
      unfold last_meta3. fold (sE F'). fold (sE F). rewrite HsE. fold s. rewrite HL.
      destruct (Z.ltb_spec (zlen F) PP); destruct (Z.ltb_spec (zlen F + 1) PP); auto; exfalso.
      * assert (X : zlen F + 1 = PP) by lia. apply Hz. rewrite X. unfold PP. rewrite Z.mul_comm. apply Z.mod_mul. lia.
      * lia.
    + intros Hbk. eapply safe_weaken; [|exact (I16 Hbk)]. rewrite HL. lia.
Qed.

(** closing the sinks that are still open when the writer is destroyed *)
Definition is_close (e : event) : Prop := match e with EClose _ => True | _ => False end.
Lemma close_content P0 w w' l : extends P0 w w' -> (forall e, P0 e -> is_close e) -> content E (w_trace w') l = content E (w_trace w) l.
Proof.
  intros (evs & -> & H & _) HP. revert H. induction evs as [|e evs IH] using rev_ind; intros H; [rewrite app_nil_r; auto|].
  apply Forall_app in H as [H1 H2]. inversion H2 as [|? ? He _]; subst. specialize (IH H1). apply HP in He.
  destruct e; try destruct He. destruct l as [p'|b k]; cbn [content] in *.
  - unfold file_of in *. rewrite app_assoc, fold_left_app. cbn. exact IH.
  - unfold object_of in *. rewrite app_assoc, rev_app_distr. cbn. exact IH.
Qed.
Lemma destroy_sinks ss : forall ls a w,
  List.length ss = List.length ls ->
  (forall i, (i < List.length ls)%nat -> exists sk, nth i ss None = Some sk /\ loc_of sk = nth i ls (LF "")) ->
  exists w', miter (fun s => match s with Some s => onWd (sink_destroy s) | None => ret tt end) ss (a, w) = ((a, w'), Ok tt)
    /\ extends (fun e => in_locs ls e /\ is_close e) w w'.
Proof.
  induction ss as [|o ss IH]; intros ls a w L H.
  - exists w. split; [reflexivity|apply extends_refl].
  - destruct ls as [|l ls]; [discriminate|]. destruct (H O ltac:(cbn; lia)) as (sk & X1 & X2). cbn in X1, X2. subst o.
    assert (X : exists w1, sink_destroy sk w = (w1, Ok tt) /\ extends (fun e => in_locs (l :: ls) e /\ is_close e) w w1).
    { destruct sk as [f|s3]; cbn.
      - unfold file_close. destruct (f_open f).
        + unfold emit, modM. eexists. split; [reflexivity|]. exists [EClose (f_path f)]. cbn. split; [auto|]. split; [|auto].
          constructor; [|constructor]. split; [exists l; split; [left; auto|cbn in X2; subst l; cbn; auto]|exact I].
        + eexists. split; [reflexivity|apply extends_refl].
      - eexists. split; [reflexivity|apply extends_refl]. }
    destruct X as (w1 & R1 & R2). cbn [miter].
    erewrite bind_ok. 2:{ unfold onWd. cbn [snd fst]. rewrite R1. reflexivity. }
    destruct (IH ls a w1) as (w2 & S1 & S2); [cbn in L; lia| |].
    { intros i Hi. apply (H (S i)). cbn. lia. }
    exists w2. split; [exact S1|]. eapply extends_trans; [exact R2|]. eapply extends_impl; [|exact S2].
    intros e [He1 He2]. split; [eapply in_locs_incl; [|exact He1]; intros; right; auto|auto].
Qed.

Lemma finalize_rest a w s cs c :
  0 <= s -> (a_sinks a = [] \/ sinks_hold E w (a_sinks a) (slocs s) cs) ->
  meta_state E w (a_meta a) (mloc true) c -> (forall d, c = Some d -> 0 < zlen d < 2 ^ 64) ->
  exists a' w', (ok2 <- on_meta_slot (finalize_sink E) ;;
    if ok2 then
      a <- getA ;;
      miter (fun s => match s with Some s => onWd (sink_destroy s) | None => ret tt end) (a_sinks a) ;;;
      modA (fun a => set_sinks (set_bufs a []) []) ;;;
      ret true
    else ret false) (a, w) = ((a', w'), Ok true)
    /\ extends (qev true NS s) w w'
    /\ content E (w_trace w') (mloc true) = match c with Some d => Some d | None => content E (w_trace w) (mloc true) end
    /\ (forall s' k, 0 <= s' -> (k < Kn)%nat -> content E (w_trace w') (sloc s' k) = content E (w_trace w) (sloc s' k))
    /\ (forall N, bk = None -> N < (s + 1) * PP -> safe3 N (w_trace w) -> safe3 N (w_trace w')).
Proof.
  intros Hs0 Hsk Hm Hl. destruct v3_consts as (_ & _ & _ & _ & V4 & V5).
  assert (Hmeta : exists w1, on_meta_slot (finalize_sink E) (a, w) = ((set_meta a None, w1), Ok true)
     /\ extends (shut (mloc true)) w w1
     /\ content E (w_trace w1) (mloc true) = match c with Some d => Some d | None => content E (w_trace w) (mloc true) end).
  { destruct (a_meta a) as [sk|] eqn:Em; destruct c as [d|]; try (destruct Hm; fail).
    - destruct Hm as [M1 M2]. specialize (Hl d eq_refl).
      destruct (finalize_sink_shut E w sk d HE M2) as (w' & R1 & R2 & R3 & _); [lia|left; intros ->; change (zlen []) with 0 in Hl; lia|].
      exists w'. unfold on_meta_slot. rewrite Em, R1. rewrite M1 in R2, R3. auto.
    - exists w. unfold on_meta_slot. rewrite Em. cbn. split; [reflexivity|]. split; [apply extends_refl|reflexivity]. }
  destruct Hmeta as (w1 & R1 & R2' & R3).
  assert (R2 : extends (only (mloc true)) w w1) by (eapply extends_impl; [|exact R2']; apply shut_only). erewrite bind_ok by exact R1. cbv beta iota.
  rewrite (bind_ok getA _ (set_meta a None, w1) (set_meta a None, w1) (set_meta a None)) by reflexivity.
  change (a_sinks (set_meta a None)) with (a_sinks a).
  assert (Hd : exists w2, miter (fun s => match s with Some s => onWd (sink_destroy s) | None => ret tt end) (a_sinks a) (set_meta a None, w1) = ((set_meta a None, w2), Ok tt)
      /\ extends (fun e => in_locs (slocs s) e /\ is_close e) w1 w2).
  { destruct Hsk as [->|(L1 & L2 & Hsk)]; [exists w1; split; [reflexivity|apply extends_refl]|].
    apply destroy_sinks; auto. intros i Hi. destruct (Hsk i Hi) as (sk & X1 & X2 & _). eauto. }
  destruct Hd as (w2 & S1 & S2). erewrite bind_ok by exact S1.
  unfold bind, modA, ret. cbn [fst snd]. do 2 eexists. split; [reflexivity|].
  assert (Hcc : forall l, content E (w_trace w2) l = content E (w_trace w1) l).
  { intros l. apply (close_content _ _ _ _ S2). intros e He; apply He. }
  split; [|split; [|split]].
  - eapply extends_trans.
    + eapply extends_impl; [|exact R2]. intros e He. right. exists (mloc true). split; [left; auto|auto].
    + eapply extends_impl; [|exact S2]. intros e [He _]. right. eapply in_locs_incl; [|exact He]. intros; right; auto.
  - rewrite Hcc. exact R3.
  - intros s' k Hs' Hk. rewrite Hcc. rewrite (extends_content E _ _ _ _ R2); auto.
    intros e He Ha. pose proof (only_affects _ _ _ He Ha) as X. apply (mloc_not_q true NS s'); auto; [rewrite V5; lia|].
    rewrite <- X. apply sloc_in; auto.
  - intros N Hbk HN Hsf.
    assert (Hsf1 : safe3 N (w_trace w1)).
    { eapply safe_ext; [exact Hsf|exact R2'| |].
      - intros e [He1 He2]. right. unfold mloc in He2. rewrite Hbk in He2. destruct e; simpl in *; tauto.
      - intros k l e Hk Hlk He. apply (need3_below N s k); auto; [lia|]. right. exists (mloc true). split; [left; auto|apply shut_only; auto]. }
    eapply safe_ext; [exact Hsf1|exact S2| |].
    + intros e [_ He]. right. destruct e; simpl in *; tauto.
    + intros k l e Hk Hlk [He _]. apply (need3_below N s k); auto; [lia|]. right. eapply in_locs_incl; [|exact He]. intros; right; auto.
Qed.

Lemma sinks_content w ss s f : bk = None -> sinks_hold E w ss (slocs s) (overk f) ->
  forall k, (k < Kn)%nat -> content E (w_trace w) (sloc s k) = Some (f k).
Proof.
  intros Hb (L1 & L2 & H) k Hk. destruct (H k) as (sk & X1 & X2 & X3); [rewrite slocs_len; auto|].
  rewrite slocs_nth in X2 by auto. rewrite nth_overk in X3 by auto. rewrite <- X2. destruct sk as [fl|s3].
  - destruct X3 as [_ X3]. exact X3.
  - exfalso. unfold sloc in X2. rewrite Hb in X2. discriminate.
Qed.

(** what is stored after the stream has been closed *)
Theorem finalize_v3 F a w :
  inv3 F a w -> (bk = None -> zlen (D true t (zlen F)) < 2 ^ 64) ->
  exists a' w', finalize_array E (a, w) = ((a', w'), Ok true)
    /\ extends (level_ev true root m bk level) w w'
    /\ (forall s k, 0 <= s < sE F -> (k < Kn)%nat -> content E (w_trace w') (sloc s k) = Some (sfile F s k (Z.to_nat S0)))
    /\ (bk = None -> zlen F mod P <> 0 -> forall k, (k < Kn)%nat ->
          content E (w_trace w') (sloc (sE F) k) = Some (sfile F (sE F) k (S (rE F))))
    /\ (bk = None -> zlen F mod P = 0 -> zlen F mod PP <> 0 -> forall k, (k < Kn)%nat ->
          content E (w_trace w') (sloc (sE F) k) = Some (scont F (sE F) k (rE F)))
    /\ (zlen F mod P <> 0 -> content E (w_trace w') (mloc true) = Some (D true t (zlen F)))
    /\ (zlen F mod P = 0 -> PP <= zlen F -> content E (w_trace w') (mloc true) = Some (D true t (zlen F / PP * PP)))
    /\ (zlen F mod P = 0 -> zlen F < PP -> content E (w_trace w') (mloc true) = content E (w_trace w) (mloc true))
    /\ (bk = None -> safe3 (zlen F) (w_trace w')).
Proof.
  intros [I1 I2 I3 I4 I5 I6 I7 I8 I9 I10 I11 I12 I13 I14 I15 I16] Hd64. destruct consts as (CP & CN & CB & CF & CE & CA & CNs).
  destruct v3_consts as (V0 & V1 & V2 & V3 & V4 & V5). destruct (epochs F) as (E1 & E2 & E3 & E4 & E5 & E6).
  pose proof (zlen_nonneg F) as HF0.
  unfold finalize_array. rewrite (bind_ok (modA _) _ (a, w) (set_final a true, w) tt) by reflexivity.
  set (a0 := set_final a true).
  assert (HDl : forall k, 0 <= k <= zlen F -> 0 < zlen (D true t k) < 2 ^ 64).
  { intros k Hk. assert (X : zlen (D true t k) <= zlen (D true t (zlen F))).
    { unfold D. apply doc_len_mono. split; [apply ceil_div_nonneg; lia|apply ceil_div_mono; lia]. }
    split.
    - pose proof (doc_nonempty true ds t (c_comp cfg) (ceil_div k (prodZ A))) as Y. fold (D true t k) in Y.
      destruct (D true t k) as [|z l]; [congruence|rewrite zlen_cons in *; pose proof (zlen_nonneg l); lia].
    - eapply Z.le_lt_trans; [exact X|]. destruct bk eqn:Eb; [|auto]. eapply Z.lt_trans; [apply Hdoc; [discriminate|lia]|]. unfold part_size. lia. }
  assert (HFs : zlen F < (sE F + 1) * PP).
  { unfold sE. pose proof (Z.mul_succ_div_gt (zlen F) PP ltac:(lia)). lia. }
  assert (Hq : forall e, qev true NS (sE F) e -> level_ev true root m bk level e).
  { intros e He. apply (qev_level true NS (sE F)); auto. }
  destruct (Z.eq_dec (zlen F mod P) 0) as [Hz|Hz].
  - assert (Hfl : flush E (a0, w) = ((a0, w), Ok tt)).
    { unfold flush. rewrite (bind_ok getA _ (a0, w) (a0, w) a0) by reflexivity. change (a_toflush a0) with (a_toflush a).
      rewrite I11, Hz. reflexivity. }
    erewrite bind_ok. 2:{ unfold catchM. erewrite bind_ok by exact Hfl. reflexivity. }
    cbv beta iota.
    destruct (finalize_rest a0 w (sE F) (overk (fun k => scont F (sE F) k (rE F))) (option_map (D true t) (last_meta3 (zlen F)))) as (a' & w' & R1 & R2 & R3 & R4 & R5); auto.
    { unfold sinks_at in I7. destruct (Nat.eqb (rE F) 0); [left|right]; auto. }
    { intros d Hd. unfold last_meta3 in Hd. destruct (zlen F <? PP); [discriminate|]. cbn [option_map] in Hd. inversion Hd; subst d. apply HDl.
      pose proof (Z.mul_div_le (zlen F) PP ltac:(lia)). split; [apply Z.mul_nonneg_nonneg; [exact E1|lia]|lia]. }
    exists a', w'. split; [exact R1|]. split; [eapply extends_impl; [|exact R2]; auto|].
    split; [intros s k Hs' Hk; rewrite R4 by (auto; lia); apply I12; auto|].
    split; [congruence|]. split; [|split; [congruence|split; [|split]]].
    + intros Hb _ Hn k Hk. rewrite R4 by auto.
      assert (Hr : rE F <> O).
      { intros X. apply Hn. apply Z.eqb_eq. rewrite mod_PP by auto. apply Z.eqb_eq. unfold rE in X. pose proof (Z.mod_pos_bound (zlen F / P) S0 V0). lia. }
      unfold sinks_at in I7. rewrite (proj2 (Nat.eqb_neq _ _) Hr) in I7. eapply (sinks_content w _ _ (fun k => scont F (sE F) k (rE F))); eauto.
    + intros _ Hge. rewrite R3. unfold last_meta3. rewrite (proj2 (Z.ltb_ge _ _)) by auto. reflexivity.
    + intros _ Hlt. rewrite R3. unfold last_meta3. rewrite (proj2 (Z.ltb_lt _ _)) by auto. reflexivity.
    + intros Hbk. apply R5; auto.
  - assert (HFne : F <> []) by (intros ->; apply Hz; apply Z.mod_0_l; lia).
    assert (Hb : a_bufs a = schunks F (zlen F / P)) by (destruct I10 as [[_ X]|X]; [congruence|auto]).
    assert (Hro : (zlen F mod PP =? 0) = false).
    { apply Z.eqb_neq. intros X. apply Hz. unfold PP in X. rewrite Z.rem_mul_r in X by lia.
      pose proof (Z.mod_pos_bound (zlen F) P ltac:(lia)). pose proof (Z.mod_pos_bound (zlen F / P) S0 V0).
      assert (0 <= P * ((zlen F / P) mod S0)) by (apply Z.mul_nonneg_nonneg; lia). lia. }
    assert (Hs1 : sE F < 2 ^ 32 - 1).
    { assert (zlen F / P < zlen F \/ P = 1) as [X|X].
      { destruct (Z.eq_dec P 1); [auto|left; apply Z.div_lt; [|lia]]. destruct F; [congruence|rewrite zlen_cons; pose proof (zlen_nonneg F); lia]. }
      - lia.
      - exfalso. rewrite X, Z.mod_1_r in Hz. lia. }
    destruct (flush_v3_ok a0 w F (sE F) (rE F) (last_meta3 (zlen F))) as (a' & w' & R1 & (Q1 & Q2 & Q3 & Q4 & Q5 & Q6 & Q7 & Q8 & Q9) & R2 & R3 & R4 & R6); auto.
    + cbn. rewrite Hb, E3. reflexivity.
    + cbn. rewrite I11. apply Z.neq_mul_0. lia.
    + lia.
    + intros k Hk. unfold last_meta3 in Hk. destruct (zlen F <? PP); [discriminate|]. inversion Hk; subst k.
      pose proof (Z.mul_div_le (zlen F) PP ltac:(lia)). split; [apply Z.mul_nonneg_nonneg; [exact E1|lia]|lia].
    + rewrite Hro in R3. change (a_final a0) with true in R3, R4. cbn [orb] in R3, R4.
      erewrite bind_ok. 2:{ unfold catchM. erewrite bind_ok by exact R1. reflexivity. }
      cbv beta iota. cbn [option_map] in R4.
      destruct (finalize_rest a' w' (sE F) (overk (fun k => sfile F (sE F) k (S (rE F)))) (Some (D true t (zlen F)))) as (a2 & w2 & S1 & S2 & S3 & S4 & S5); auto.
      { intros d Hd. inversion Hd; subst d. apply HDl. lia. }
      exists a2, w2. split; [exact S1|].
      split; [eapply extends_trans; [eapply extends_impl; [|exact R2]|eapply extends_impl; [|exact S2]]; auto|].
      split; [|split; [|split; [congruence|split; [auto|split; [congruence|split; [congruence|]]]]]].
      * intros s k Hs' Hk. rewrite S4 by (auto; lia).
        rewrite (extends_content E _ _ _ _ R2) by (intros e; apply qev_not_sloc; auto; lia). apply I12; auto.
      * intros Hbk _ k Hk. rewrite S4 by auto. eapply (sinks_content w' _ _ (fun k => sfile F (sE F) k (S (rE F)))); eauto.
      * intros Hbk. apply S5; auto.
        apply (flush_safe3 F (zlen F) (sE F) w w' (a_final a0 || (zlen F mod PP =? 0)) (zlen F mod PP =? 0)); auto; try lia.
Qed.

(** ** reading a sharded array *)
(** number of chunk rows written into shard epoch [s] when all of [F] has been flushed *)
Definition rows (F : list (list Z)) (s : Z) : Z := Z.min S0 (ceil_div (zlen F) P - s * S0).

Lemma mem_slots k : (forall d, In d (mem k) -> 0 <= slot d < CPS) /\ NoDup (map slot (mem k)).
Proof.
  split; [|apply (slots_nodup bpp d0 mids dy dx Hf Hs k)].
  intros d Hd. apply (members_lt d0) in Hd as [Hd _]. apply (slot_bound bpp d0 mids dy dx Hf Hs). exact Hd.
Qed.

Lemma stab_untouched F s k r j : 0 <= j < CPS -> (forall c, In c (mem k) -> slot c <> j) ->
  nth (Z.to_nat (2 * j)) (stab F s k r) 0 = max64 /\ nth (Z.to_nat (2 * j + 1)) (stab F s k r) 0 = max64.
Proof.
  intros Hj Hn. destruct (mem_slots k) as [M1 _]. induction r as [|r [IH1 IH2]].
  - change (stab F s k O) with (zrep max64 (2 * CPS)).
    assert (X : forall n i, (i < n)%nat -> nth i (repeat max64 n) 0 = max64).
    { clear. induction n; simpl; intros i Hi; [lia|]. destruct i; auto. apply IHn. lia. }
    unfold zrep. split; apply X; clear - Hj; lia.
  - rewrite stab_S. destruct (fill_miss slot (pay F (s * S0 + Z.of_nat r)) (mem k) (zlen (scont F s k r)) (stab F s k r) j) as [Y1 Y2].
    + clear - Hj; lia.
    + intros c Hc. pose proof (M1 c Hc) as Z1. rewrite stab_len. split; [lia|]. split; [lia|]. apply Hn; auto.
    + rewrite Y1, Y2. auto.
Qed.

Lemma sfile_S F s k r : sfile F s k (S r)
  = scont F s k r ++ body (pay F (s * S0 + Z.of_nat r)) (mem k)
    ++ table_bytes (fill slot (pay F (s * S0 + Z.of_nat r)) (mem k) (zlen (scont F s k r)) (stab F s k r)).
Proof. unfold sfile. rewrite scont_S, stab_S, <- app_assoc. reflexivity. Qed.

Lemma sfile_room F s k r : (r < Z.to_nat S0)%nat -> zlen (scont F s k r) + zlen (body (pay F (s * S0 + Z.of_nat r)) (mem k)) < 2 ^ 64.
Proof.
  intros Hr. pose proof (scont_len F s k r). pose proof (body_bound F (s * S0 + Z.of_nat r) k). pose proof (file_room r Hr) as X.
  destruct v3_consts as (_ & _ & V2 & _).
  assert (zlen (scont F s k r) + zlen (body (pay F (s * S0 + Z.of_nat r)) (mem k)) <= (Z.of_nat r + 1) * (nbuf * mxl)) by lia. lia.
Qed.

Lemma sfile_hit F s k r c : (r < Z.to_nat S0)%nat -> In c (mem k) ->
  shard_chunk (sfile F s k (S r)) CPS (slot c) = Some (pay F (s * S0 + Z.of_nat r) c).
Proof.
  intros Hr Hc. destruct (mem_slots k) as [M1 M2]. rewrite sfile_S.
  destruct (in_split _ _ Hc) as (l1 & l2 & El). pose proof (sfile_room F s k r Hr) as Hroom. rewrite El in M1, M2, Hroom |- *.
  apply shard_chunk_hit; auto.
  - apply stab_len.
  - apply stab_words. lia.
  - apply (enc_len F (s * S0 + Z.of_nat r) (Z.of_nat c)).
Qed.

Lemma sfile_miss F s k r j : (r < Z.to_nat S0)%nat -> 0 <= j < CPS -> (forall c, In c (mem k) -> slot c <> j) ->
  shard_chunk (sfile F s k (S r)) CPS j = None.
Proof.
  intros Hr Hj Hn. destruct (mem_slots k) as [M1 M2]. rewrite sfile_S. destruct (stab_untouched F s k r j Hj Hn) as [U1 U2].
  apply shard_chunk_miss; auto.
  - apply stab_len.
  - apply stab_words. lia.
  - apply sfile_room; auto.
Qed.

(** What the sharded reader finds: only the chunks whose append coordinate inside the shard
    is 0 are present, and they hold the last row of chunks written into the shard. *)
Theorem read_v3_ok F tr (decode : list Z -> list Z) :
  (forall raw, zlen raw = B -> decode (enc raw) = raw) ->
  forall tt mm y x b,
  (forall s k, s = tt / d_chunk d0 / S0 -> 0 <= s -> s * PP < zlen F -> (k < Kn)%nat ->
     content E tr (sloc s k) = Some (sfile F s k (Z.to_nat (rows F s)))) ->
  0 <= tt < ceil_div (zlen F) (prodZ A) -> in_bounds A mm -> 0 <= y < d_array dy -> 0 <= x < d_array dx -> 0 <= b < bpp ->
  read_v3 (fun k => content E tr (mkloc bk k)) decode (join_path root ["data"; "root"; dec level]) (map d_chunk ds) (map d_shard ds) bpp (tt :: mm ++ [y; x]) b
  = if (tt / d_chunk d0) mod S0 =? 0
    then appended_byte bpp A (d_array dx) F (tt + (rows F (tt / d_chunk d0 / S0) - 1) * d_chunk d0) mm y x b
    else 0.
Proof.
  intros Hdec tt mm y x b Hst Htt Hmm Hy Hx Hb. destruct consts as (CP & CN & CB & CF & CE & CA & CNs).
  destruct v3_consts as (V0 & V1 & V2 & V3 & V4 & V5). pose proof (fit_c0 _ _ _ _ _ Hf) as HC0.
  set (q := tt / d_chunk d0). set (s := q / S0). set (r := rows F s).
  assert (Hq : 0 <= q) by (apply Z.div_pos; lia).
  assert (Hs0 : 0 <= s) by (apply Z.div_pos; lia).
  assert (Htf : tt * prodZ A < zlen F).
  { destruct Htt as [Ht0 Ht1]. unfold ceil_div in Ht1.
    assert (tt * prodZ A <= (zlen F + prodZ A - 1) / prodZ A * prodZ A - prodZ A) by nia.
    pose proof (Z.mul_div_le (zlen F + prodZ A - 1) (prodZ A) ltac:(lia)). lia. }
  assert (HqF : q * P < zlen F).
  { assert (q * d_chunk d0 <= tt) by (unfold q; rewrite Z.mul_comm; apply Z.mul_div_le; lia).
    unfold P. rewrite Z.mul_assoc. eapply Z.le_lt_trans; [|exact Htf]. apply Z.mul_le_mono_nonneg_r; lia. }
  assert (Hsq : s * S0 <= q) by (unfold s; rewrite Z.mul_comm; apply Z.mul_div_le; lia).
  assert (HsF : s * PP < zlen F).
  { eapply Z.le_lt_trans; [|exact HqF]. unfold PP. rewrite (Z.mul_comm P S0), Z.mul_assoc. apply Z.mul_le_mono_nonneg_r; lia. }
  assert (Hr : 1 <= r <= S0).
  { unfold r, rows. assert (q < ceil_div (zlen F) P); [|lia].
    pose proof (ceil_div_spec (zlen F) P ltac:(lia)) as [X _].
    destruct (Z.lt_ge_cases q (ceil_div (zlen F) P)) as [|Y]; [auto|exfalso].
    apply (Z.mul_le_mono_nonneg_r _ _ P) in Y; lia. }
  assert (Ern : Z.to_nat r = S (Z.to_nat (r - 1))) by (clear - Hr; lia).
  assert (Hrn : (Z.to_nat (r - 1) < Z.to_nat S0)%nat) by (clear - Hr; lia).
  destruct (spec_byte_read bpp d0 mids dy dx Hf F (tt + (r - 1) * d_chunk d0) mm y x b) as (R1 & R2 & R3 & R4 & R5); auto.
  { apply Z.add_nonneg_nonneg; [lia|]. apply Z.mul_nonneg_nonneg; lia. }
  cbn [app map zip_with hd tl] in R1, R2, R3, R4, R5.
  rewrite Z.div_add in R1, R5 by lia. rewrite Z.mod_add in R4, R5 by lia. fold q in R1, R5.
  fold Ns nbuf in R2, R3. fold ds in R4, R5. fold B in R4. fold A in R5.
  unfold read_v3. cbv zeta. unfold ds at 1 2 5 6. cbn [map zip_with]. fold q. fold S0.
  set (rest := zip_with Z.div (mm ++ [y; x]) (map d_chunk (mids ++ [dy; dx]))) in *.
  set (c := ravel Ns rest) in *.
  change (shard_key (join_path root ["data"; "root"; dec level]) (q / S0 :: zip_with Z.div rest (map d_shard (mids ++ [dy; dx]))))
    with (path_of_coords (base true s) (zip_with Z.div rest (map d_shard (mids ++ [dy; dx])))).
  assert (Er : unravel Ns c = rest) by (apply unravel_ravel; auto).
  assert (Hsb : in_bounds NS (zip_with Z.div rest (map d_shard (mids ++ [dy; dx])))) by (apply (g_div_bounds d0 mids dy dx Hs); exact R2).
  set (k := Z.to_nat (shard_of mids dy dx c)).
  assert (Hk : 0 <= shard_of mids dy dx c < K).
  { apply (shard_of_bound bpp d0 mids dy dx Hf Hs). fold Ns. rewrite <- CNs. exact R3. }
  assert (Ek : Z.of_nat k = shard_of mids dy dx c) by (unfold k; apply Z2Nat.id; apply Hk).
  assert (Hkn : (k < Kn)%nat) by (unfold k, Kn; clear - Hk; lia).
  assert (El : mkloc bk (path_of_coords (base true s) (zip_with Z.div rest (map d_shard (mids ++ [dy; dx])))) = sloc s k).
  { unfold sloc. rewrite Ek. unfold shard_of. fold Ns NS. rewrite Er. rewrite unravel_ravel by exact Hsb. reflexivity. }
  rewrite El, Hst by auto. fold r. rewrite Ern. fold ds.
  change (d_shard d0 :: map d_shard (mids ++ [dy; dx])) with (map d_shard ds).
  change (prodZ (map d_shard ds)) with CPS.
  assert (Hcn : (Z.to_nat c < Z.to_nat (prodZ Ns))%nat) by (rewrite <- CNs; clear - R3; lia).
  assert (Hcid : Z.of_nat (Z.to_nat c) = c) by (clear - R3; lia).
  assert (Hmb : in_bounds (map d_shard (mids ++ [dy; dx])) (zip_with Z.modulo rest (map d_shard (mids ++ [dy; dx])))).
  { apply (g_mod_bounds d0 mids dy dx Hs). exact R2. }
  pose proof (Z.mod_pos_bound q S0 V0) as Hqm.
  destruct (Z.eqb_spec (q mod S0) 0) as [Hz|Hz].
  - rewrite Hz.
    assert (Es : slot (Z.to_nat c) = ravel (map d_shard ds) (0 :: zip_with Z.modulo rest (map d_shard (mids ++ [dy; dx])))).
    { unfold slot, slot_of. rewrite Hcid. fold Ns. rewrite Er. reflexivity. }
    rewrite <- Es.
    assert (Hin : In (Z.to_nat c) (mem k)).
    { apply (in_members d0); auto. rewrite Hcid, Ek. reflexivity. }
    rewrite (sfile_hit F s k (Z.to_nat (r - 1)) (Z.to_nat c) Hrn Hin).
    unfold pay. rewrite Hcid. rewrite Z2Nat.id by (clear - Hr; lia).
    rewrite Hdec by apply schunk_len. unfold schunk. rewrite (getb_spec_chunk bpp d0 mids dy dx) by exact R4.
    rewrite <- R5. f_equal. unfold s. rewrite (Z.div_mod q S0) at 2 by lia. lia.
  - rewrite sfile_miss; [reflexivity|exact Hrn| |].
    + unfold CPS. apply ravel_bound. unfold ds. cbn [map in_bounds]. split; [fold S0; exact Hqm|exact Hmb].
    + intros d Hd X. unfold slot, slot_of in X. apply ravel_inj in X.
      * inversion X; congruence.
      * unfold ds. cbn [map in_bounds]. split; [fold S0; lia|]. apply (g_mod_bounds d0 mids dy dx Hs).
        apply unravel_in_bounds; [apply Ns_pos|]. fold Ns. rewrite <- CNs. apply (mem_lt k d Hd).
      * unfold ds. cbn [map in_bounds]. split; [fold S0; exact Hqm|exact Hmb].
Qed.


(** the shard files after closing, where [finalize_v3] tells them *)
Lemma rows_old (F : list (list Z)) s : 0 <= s < sE F -> rows F s = S0.
Proof.
  intros Hs0. destruct consts as (CP & _). destruct v3_consts as (V0 & _ & _ & V3 & _). destruct (epochs F) as (E1 & E2 & E3 & E4 & _).
  unfold rows. assert ((s + 1) * S0 <= ceil_div (zlen F) P); [|lia].
  pose proof (ceil_div_spec (zlen F) P ltac:(lia)) as [X _].
  assert ((s + 1) * S0 <= sE F * S0) by (apply Z.mul_le_mono_nonneg_r; lia).
  destruct (Z.le_gt_cases (sE F * S0 + Z.of_nat (rE F)) (ceil_div (zlen F) P)) as [|Y]; [lia|exfalso].
  assert (zlen F / P <= ceil_div (zlen F) P); [|lia]. unfold ceil_div. apply Z.div_le_mono; lia.
Qed.
Lemma rows_last (F : list (list Z)) : zlen F mod P <> 0 -> rows F (sE F) = Z.of_nat (S (rE F)).
Proof.
  intros Hz. destruct consts as (CP & _). destruct v3_consts as (V0 & _ & _ & V3 & _). destruct (epochs F) as (E1 & E2 & E3 & E4 & _).
  unfold rows. assert (ceil_div (zlen F) P = zlen F / P + 1) as ->; [|lia].
  unfold ceil_div. pose proof (Z.div_mod (zlen F) P ltac:(lia)). pose proof (Z.mod_pos_bound (zlen F) P ltac:(lia)).
  symmetry. apply Z.div_unique with (r := zlen F mod P - 1); lia.
Qed.
Lemma last_not_full (F : list (list Z)) : zlen F < (sE F + 1) * PP.
Proof.
  destruct consts as (CP & _). destruct v3_consts as (V0 & _ & _ & V3 & _). unfold sE.
  pose proof (Z.div_mod (zlen F) PP ltac:(lia)). pose proof (Z.mod_pos_bound (zlen F) PP ltac:(lia)). lia.
Qed.
Lemma epoch_le (F : list (list Z)) s : 0 <= s -> s * PP < zlen F -> 0 <= s < sE F \/ (s = sE F /\ zlen F mod PP <> 0).
Proof.
  intros Hs0 H. destruct consts as (CP & _). destruct v3_consts as (V0 & _ & _ & V3 & _). unfold sE.
  assert (s <= zlen F / PP) by (apply Z.div_le_lower_bound; lia).
  destruct (Z.eq_dec s (zlen F / PP)) as [->|]; [right|left; lia]. split; auto. intros Hz.
  pose proof (Z.div_mod (zlen F) PP ltac:(lia)). lia.
Qed.
End V3.
End W.
