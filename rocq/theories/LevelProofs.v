(** One resolution level: the results of WriterProofs.v for Zarr v2 and v3 under one name. *)
Require Import ZArith List Bool String Ascii Lia Zify.
Require Import Verif.Base Verif.Spec Verif.Dim Verif.Limits Verif.Radix Verif.PathProofs Verif.World Verif.Writer
  Verif.SinkProofs Verif.CreateProofs Verif.FlushProofs Verif.CrashProofs Verif.LayoutProofs Verif.BufProofs Verif.WriterProofs.
Import ListNotations.
Open Scope string_scope.
Open Scope list_scope.
Open Scope Z_scope.

Record lev : Type := mklev {
  l_cfg : config; l_bpp : Z; l_d0 : dim; l_mids : list dim; l_dy : dim; l_dx : dim;
  l_enc : list Z -> list Z; l_mxl : Z; l_t : string }.

Definition l_fb (L : lev) : Z := d_array (l_dy L) * d_array (l_dx L) * l_bpp L.
Definition l_P (L : lev) : Z := d_chunk (l_d0 L) * prodZ (map d_array (l_mids L)).
Definition l_PP (L : lev) : Z := l_P L * d_shard (l_d0 L).
Definition l_ds (L : lev) : list dim := l_d0 L :: l_mids L ++ [l_dy L; l_dx L].
Definition l_nbuf (L : lev) : Z := prodZ (map nch (l_mids L)) * (nch (l_dy L) * nch (l_dx L)).
Definition l_B (L : lev) : Z := prodZ (map d_chunk (l_ds L)) * l_bpp L.
Definition l_D (v3 : bool) (L : lev) (k : Z) : list Z :=
  doc v3 (l_ds L) (l_t L) (c_comp (l_cfg L)) (ceil_div k (prodZ (map d_array (l_mids L)))).
Definition l_level (L : lev) : Z := c_level (l_cfg L).

Section Lev.
Variable E : env.
Hypothesis HE : calm E.
Variables (v3 : bool) (root : string) (bk : option string) (m : nat).
Hypothesis Hroot : root <> "".
Hypothesis Hplain : bk = None -> String.prefix "file:" root = false.
Hypothesis Hbucket : bk <> Some "".

Record lev_ok (L : lev) : Prop := {
  lo_ds : c_dims (l_cfg L) = l_ds L;
  lo_bpp : bytes_of_type (c_dtype (l_cfg L)) = Ok (l_bpp L);
  lo_f : fits (l_bpp L) (l_d0 L) (l_mids L) (l_dy L) (l_dx L);
  lo_ep : fits_epoch (l_bpp L) (l_d0 L) (l_mids L) (l_dy L) (l_dx L);
  lo_enc : comp_ok E (c_comp (l_cfg L)) (l_bpp L) (l_B L) (l_enc L) (l_mxl L);
  lo_mxl : l_mxl L < 2 ^ 64;
  lo_level : 0 <= c_level (l_cfg L);
  lo_root : c_root (l_cfg L) = root;
  lo_bk : c_bucket (l_cfg L) = bk;
  lo_m : List.length (l_mids L) = m;
  lo_t : (if v3 then dtype_v3 else dtype_v2) (c_dtype (l_cfg L)) = Some (l_t L);
  lo_doc : forall k, 0 <= k < 2 ^ 32 -> zlen (l_D v3 L k) < (match bk with None => 2 ^ 64 | Some _ => part_size end);
  lo_s : v3 = true -> fits_shards (l_d0 L) (l_mids L) (l_dy L) (l_dx L)
           /\ d_shard (l_d0 L) * (l_nbuf L * l_mxl L) + 16 * prodZ (map d_shard (l_ds L)) < 2 ^ 64 }.

Definition winv (L : lev) (F : list (list Z)) (a : writer) (w : world) : Prop :=
  (if v3 then inv3 else inv2) E (l_cfg L) (l_bpp L) (l_d0 L) (l_mids L) (l_dy L) (l_dx L) (l_enc L) (l_t L) F a w.

Definition wready (w : world) : Prop :=
  (bk = None -> free_dirs v3 root m E w) /\ (bk <> None -> (0 < w_conns w)%nat).

Lemma wready_ready L w : lev_ok L -> wready w -> ready E (l_cfg L) (l_mids L) v3 w.
Proof.
  intros H R. unfold ready. rewrite (lo_root _ H), (lo_bk _ H), (lo_m _ H). exact R.
Qed.
Lemma ready_wready L w : lev_ok L -> ready E (l_cfg L) (l_mids L) v3 w -> wready w.
Proof.
  intros H R. unfold ready in R. rewrite (lo_root _ H), (lo_bk _ H), (lo_m _ H) in R. exact R.
Qed.
Lemma winv_ready L F a w : lev_ok L -> winv L F a w -> wready w.
Proof.
  intros H I. apply (ready_wready L); auto. unfold winv in I. destruct v3 eqn:V3; [eapply i3_rdy|eapply i2_rdy]; eauto.
Qed.

(** events of the level *)
Definition lev_ev (L : lev) : event -> Prop := level_ev v3 root m bk (l_level L).

Lemma winv_ext L F a w w' (Q : event -> Prop) :
  lev_ok L -> extends Q w w' ->
  (forall e p, Q e -> own v3 root m (l_level L) p -> ~ affects (mkloc bk p) e) ->
  wready w' -> winv L F a w -> winv L F a w'.
Proof.
  intros H X HQ R I. assert (R' := wready_ready L _ H R).
  assert (HQ' : forall e p, Q e -> own v3 (c_root (l_cfg L)) (List.length (l_mids L)) (c_level (l_cfg L)) p -> ~ affects (mkloc (c_bucket (l_cfg L)) p) e).
  { rewrite (lo_root _ H), (lo_bk _ H), (lo_m _ H). exact HQ. }
  unfold winv in *. destruct v3 eqn:V3.
  - destruct (lo_s _ H V3) as [Hs _].
    apply (inv3_ext E _ _ _ _ _ _ (lo_f _ H) (lo_ep _ H) _ _ Hs F a w w' Q); auto.
  - apply (inv2_ext E _ _ _ _ _ _ (lo_f _ H) (lo_ep _ H) _ _ F a w w' Q); auto.
Qed.

Lemma winv_init L w : lev_ok L -> wready w ->
  (bk = None -> content E (w_trace w) (mloc (l_cfg L) v3) = None) -> exists a, make_writer v3 (l_cfg L) = Ok a /\ winv L [] a w.
Proof.
  intros H R Hc. assert (R' := wready_ready L _ H R). rewrite <- (lo_bk _ H) in Hc. unfold winv. destruct v3 eqn:V3.
  - destruct (lo_s _ H V3) as [Hs _].
    exact (inv3_init E _ _ _ _ _ _ (lo_ds _ H) (lo_f _ H) (lo_ep _ H) _ _ Hs w R' Hc).
  - eexists. split; [reflexivity|]. apply inv2_init; auto using lo_f, lo_ep.
Qed.

Lemma lo_plain L : lev_ok L -> c_bucket (l_cfg L) = None -> String.prefix "file:" (c_root (l_cfg L)) = false.
Proof. intros H. rewrite (lo_root _ H), (lo_bk _ H). exact Hplain. Qed.
Lemma lo_bucket L : lev_ok L -> c_bucket (l_cfg L) <> Some "".
Proof. intros H. rewrite (lo_bk _ H). exact Hbucket. Qed.
Lemma lo_rootne L : lev_ok L -> c_root (l_cfg L) <> "".
Proof. intros H. rewrite (lo_root _ H). exact Hroot. Qed.
Lemma lo_docs L : lev_ok L -> c_bucket (l_cfg L) <> None -> forall k, 0 <= k < 2 ^ 32 ->
  zlen (D (l_cfg L) (l_d0 L) (l_mids L) (l_dy L) (l_dx L) v3 (l_t L) k) < part_size.
Proof.
  intros H N k Hk. assert (X := lo_doc _ H k Hk). rewrite (lo_bk _ H) in N. destruct bk; [exact X|congruence].
Qed.
Lemma part_lt : part_size < 2 ^ 64. Proof. vm_compute. reflexivity. Qed.
Lemma lo_docf L k : lev_ok L -> 0 <= k < 2 ^ 32 -> zlen (D (l_cfg L) (l_d0 L) (l_mids L) (l_dy L) (l_dx L) v3 (l_t L) k) < 2 ^ 64.
Proof.
  intros H Hk. assert (X := lo_doc _ H k Hk). unfold l_D in X. unfold D.
  change (zlen (doc v3 (l_ds L) (l_t L) (c_comp (l_cfg L)) (ceil_div k (prodZ (map d_array (l_mids L))))) < 2 ^ 64).
  destruct bk; [|exact X]. pose proof part_lt. lia.
Qed.

Lemma winv_write L F a w data :
  lev_ok L -> winv L F a w -> zlen data = l_fb L -> zlen F + 1 < 2 ^ 32 ->
  exists a' w', write_frame E data (a, w) = ((a', w'), Ok (l_fb L)) /\ winv L (F ++ [data]) a' w' /\ extends (lev_ev L) w w'.
Proof.
  intros H I Hd Hn. assert (Hdoc := lo_docs L H). unfold winv, lev_ev in *.
  rewrite <- (lo_root _ H), <- (lo_bk _ H), <- (lo_m _ H).
  assert (T := lo_t _ H). destruct v3 eqn:V3.
  - destruct (lo_s _ H V3) as [Hs Hfile].
    exact (write_frame_v3 E HE (l_cfg L) _ _ _ _ _ (lo_ds _ H) (lo_bpp _ H) (lo_f _ H) (lo_ep _ H) _ _ (lo_enc _ H)
             (lo_level _ H) (lo_rootne _ H) (lo_plain _ H) (lo_bucket _ H) _ T Hdoc Hs Hfile F a w data I Hd Hn).
  - destruct (write_frame_v2 E HE (l_cfg L) _ _ _ _ _ (lo_ds _ H) (lo_bpp _ H) (lo_f _ H) (lo_ep _ H) _ _ (lo_enc _ H)
             (lo_mxl _ H) (lo_level _ H) (lo_rootne _ H) (lo_plain _ H) (lo_bucket _ H) _ T Hdoc F a w data I Hd Hn)
      as (a' & w' & R & I' & X & _). exists a', w'. auto.
Qed.

(** what the store holds after the level has been finalized *)
Definition final2 (L : lev) (F : list (list Z)) (tr : list event) : Prop :=
  (forall q c, 0 <= q -> q * l_P L < zlen F -> 0 <= c < l_nbuf L ->
     content E tr (cloc (l_cfg L) (l_mids L) (l_dy L) (l_dx L) false q c)
     = Some (l_enc L (spec_chunk (l_bpp L) (l_d0 L) (l_mids L) (l_dy L) (l_dx L) F q c))) /\
  (F <> [] -> content E tr (mloc (l_cfg L) false) = Some (l_D false L (zlen F))) /\
  (bk = None -> safe E (mloc (l_cfg L) false) (l_D false L) (need2 (l_cfg L) (l_d0 L) (l_mids L) (l_dy L) (l_dx L)) (zlen F) tr).

Definition final3 (L : lev) (F : list (list Z)) (tr : list event) : Prop :=
  let Kn := Z.to_nat (prodZ (map nsh (l_mids L ++ [l_dy L; l_dx L]))) in
  let sl := sloc (l_cfg L) (l_mids L) (l_dy L) (l_dx L) in
  let s1 := sE (l_d0 L) (l_mids L) F in
  let r1 := rE (l_d0 L) (l_mids L) F in
  let file := sfile (l_bpp L) (l_d0 L) (l_mids L) (l_dy L) (l_dx L) (l_enc L) F in
  (forall s k, 0 <= s < s1 -> (k < Kn)%nat -> content E tr (sl s k) = Some (file s k (Z.to_nat (d_shard (l_d0 L))))) /\
  (bk = None -> zlen F mod l_P L <> 0 -> forall k, (k < Kn)%nat -> content E tr (sl s1 k) = Some (file s1 k (S r1))) /\
  (bk = None -> zlen F mod l_P L = 0 -> zlen F mod l_PP L <> 0 -> forall k, (k < Kn)%nat ->
     content E tr (sl s1 k) = Some (scont (l_bpp L) (l_d0 L) (l_mids L) (l_dy L) (l_dx L) (l_enc L) F s1 k r1)) /\
  (zlen F mod l_P L <> 0 -> content E tr (mloc (l_cfg L) true) = Some (l_D true L (zlen F))) /\
  (zlen F mod l_P L = 0 -> l_PP L <= zlen F -> content E tr (mloc (l_cfg L) true) = Some (l_D true L (zlen F / l_PP L * l_PP L))) /\
  (bk = None -> safe E (mloc (l_cfg L) true) (l_D true L) (need3 (l_cfg L) (l_d0 L) (l_mids L) (l_dy L) (l_dx L)) (zlen F) tr).

Definition final (L : lev) (F : list (list Z)) (tr : list event) : Prop := if v3 then final3 L F tr else final2 L F tr.

Lemma winv_len L F a w : winv L F a w -> zlen F < 2 ^ 32.
Proof. unfold winv. destruct v3 eqn:V3; intros I; [eapply i3_lt|eapply i2_lt]; eauto. Qed.
Lemma zlen_nonneg {A} (l : list A) : 0 <= zlen l. Proof. unfold zlen. lia. Qed.

Lemma winv_finalize L F a w :
  lev_ok L -> winv L F a w ->
  exists a' w', finalize_array E (a, w) = ((a', w'), Ok true) /\ extends (lev_ev L) w w' /\ final L F (w_trace w').
Proof.
  intros H I. assert (Hdoc := lo_docs L H). assert (Hl := winv_len _ _ _ _ I).
  assert (Hdf := lo_docf L (zlen F) H (conj (zlen_nonneg F) Hl)).
  unfold winv, lev_ev, final in *.
  rewrite <- (lo_root _ H), <- (lo_bk _ H), <- (lo_m _ H).
  assert (T := lo_t _ H). assert (Hb := lo_bk _ H). destruct v3 eqn:V3.
  - destruct (lo_s _ H V3) as [Hs Hfile].
    destruct (finalize_v3 E HE (l_cfg L) _ _ _ _ _ (lo_ds _ H) (lo_bpp _ H) (lo_f _ H) (lo_ep _ H) _ _ (lo_enc _ H)
             (lo_level _ H) (lo_rootne _ H) (lo_plain _ H) (lo_bucket _ H) _ T Hdoc Hs Hfile F a w I (fun _ => Hdf))
      as (a' & w' & R & X & C1 & C2 & C3 & C4 & C5 & _ & C6). exists a', w'. split; auto. split; auto.
    unfold final3. rewrite Hb in C2, C3, C6. split; [exact C1|]. split; [exact C2|]. split; [exact C3|]. split; [exact C4|]. split; [exact C5|exact C6].
  - destruct (finalize_v2 E HE (l_cfg L) _ _ _ _ _ (lo_ds _ H) (lo_bpp _ H) (lo_f _ H) (lo_ep _ H) _ _ (lo_enc _ H)
             (lo_mxl _ H) (lo_level _ H) (lo_rootne _ H) (lo_plain _ H) (lo_bucket _ H) _ T Hdoc F a w I (fun _ => Hdf))
      as (a' & w' & R & X & C1 & C2 & _ & C3). exists a', w'. rewrite Hb in C3. split; auto. split; auto. split; [exact C1|]. split; [exact C2|exact C3].
Qed.

(** later events elsewhere do not disturb it *)
Lemma final_ext L F w w' (Q : event -> Prop) :
  lev_ok L -> extends Q w w' ->
  (forall e p, Q e -> own v3 root m (l_level L) p -> ~ affects (mkloc bk p) e) ->
  final L F (w_trace w) -> final L F (w_trace w').
Proof.
  intros H X HQ Hfin.
  assert (K : forall p, own v3 root m (l_level L) p -> content E (w_trace w') (mkloc bk p) = content E (w_trace w) (mkloc bk p)).
  { intros p Hp. apply (extends_content E Q); auto. }
  assert (K' : forall l, (exists p, l = mkloc (c_bucket (l_cfg L)) p /\ own v3 (c_root (l_cfg L)) (List.length (l_mids L)) (c_level (l_cfg L)) p) ->
     content E (w_trace w') l = content E (w_trace w) l).
  { intros l (p & -> & Hp). rewrite (lo_root _ H), (lo_m _ H) in Hp. rewrite (lo_bk _ H). apply K. exact Hp. }
  unfold final in *. destruct v3 eqn:V3.
  - destruct (lo_s _ H V3) as [Hs _]. destruct Hfin as (C1 & C2 & C3 & C4 & C5 & C6).
    assert (SL : forall s k, 0 <= s -> (k < Z.to_nat (prodZ (map nsh (l_mids L ++ [l_dy L; l_dx L]))))%nat ->
       content E (w_trace w') (sloc (l_cfg L) (l_mids L) (l_dy L) (l_dx L) s k) = content E (w_trace w) (sloc (l_cfg L) (l_mids L) (l_dy L) (l_dx L) s k)).
    { intros s k Hs0 Hk. apply K'. exact (sloc_own (l_cfg L) _ _ _ _ _ (lo_f _ H) (lo_ep _ H) Hs s k Hs0 Hk). }
    destruct (epochs (l_cfg L) (l_bpp L) (l_d0 L) (l_mids L) (l_dy L) (l_dx L) (lo_f _ H) (lo_ep _ H) Hs F) as [E0 _].
    assert (MM : content E (w_trace w') (mloc (l_cfg L) true) = content E (w_trace w) (mloc (l_cfg L) true)) by (apply K', mloc_own).
    unfold final3. split; [|split; [|split; [|split; [|split]]]]; intros; rewrite ?SL, ?MM; auto; try lia.
    assert (Hown : forall l, (exists p, l = mkloc (c_bucket (l_cfg L)) p /\ own true (c_root (l_cfg L)) (List.length (l_mids L)) (c_level (l_cfg L)) p) ->
       forall e, Q e -> ~ affects l e).
    { intros l (p & -> & Hp) e He. rewrite (lo_root _ H), (lo_m _ H) in Hp. rewrite (lo_bk _ H). apply HQ; auto. }
    eapply safe_ext; [apply C6; auto|exact X| |].
    + intros e He. left. apply Hown; [apply mloc_own|auto].
    + intros k l e _ Hl He. apply (Hown l); [|auto]. exact (need3_own (l_cfg L) _ _ _ _ _ (lo_f _ H) (lo_ep _ H) Hs k l Hl).
  - destruct Hfin as (C1 & C2 & C3). split; [|split]; intros.
    + rewrite K'; [apply C1; auto|]. eapply (cloc_own (l_cfg L) _ _ _ _ _ (lo_f _ H) (lo_ep _ H)); auto.
    + rewrite K'; [auto|]. apply mloc_own.
    + assert (Hown : forall l, (exists p, l = mkloc (c_bucket (l_cfg L)) p /\ own false (c_root (l_cfg L)) (List.length (l_mids L)) (c_level (l_cfg L)) p) ->
         forall e, Q e -> ~ affects l e).
      { intros l (p & -> & Hp) e He. rewrite (lo_root _ H), (lo_m _ H) in Hp. rewrite (lo_bk _ H). apply HQ; auto. }
      eapply safe_ext; [apply C3; auto|exact X| |].
      * intros e He. left. apply Hown; [apply mloc_own|auto].
      * intros k l e _ Hl He. apply (Hown l); [|auto]. exact (need2_own (l_cfg L) _ _ _ _ _ (lo_f _ H) (lo_ep _ H) k l Hl).
Qed.
End Lev.
