(** One array writer when the environment may do anything. *)
Require Import ZArith List Bool String Ascii Lia.
Require Import Verif.Base Verif.Spec Verif.Dim Verif.Limits Verif.Radix Verif.DimProofs Verif.ShardProofs Verif.Json Verif.World Verif.Writer Verif.TileProofs Verif.ShardGrid Verif.StreamProofs Verif.SafeProofs.
Import ListNotations.
Open Scope string_scope. Open Scope list_scope. Open Scope Z_scope.

(** ** Copying a frame into buffers of any length *)
Lemma floop_total {A S} (f : S -> A -> outcome (S * bool)) (I : S -> Prop) l : (forall a s, In a l -> I s -> exists r, f s a = Ok r /\ I (fst r)) -> forall s, I s -> exists r, floop f l s = Ok r /\ I (fst r).
Proof.
  induction l as [|a l IH]; intros H s Hs; cbn [floop]; [exists (s, false); auto|]. destruct (H a s (or_introl eq_refl) Hs) as ([s' b] & X & Y). rewrite X. cbn [obind]. destruct b; [exists (s', true); auto|].
  apply IH; auto. intros; apply H; auto. right; auto.
Qed.
Lemma copy_row_total data bpp H W Ty Tx off i j st k : 0 < bpp <= 8 -> 0 <= off -> 0 <= k -> exists r, copy_row data bpp H W Ty Tx off i j st k = Ok r.
Proof.
  intros Hb Ho Hk. destruct st as [chunk written]. unfold copy_row. cbn zeta. destruct (_ <? H); [|eauto].
  assert (U : forall x, 0 <= u32 x < 2 ^ 32) by (intros; unfold u32; apply Z.mod_pos_bound; reflexivity).
  assert (S64 : forall x, 0 <= x < 2 ^ 36 -> s64 (u64 x) = x). { intros x Hx. unfold s64, u64. rewrite Z.mod_mod by lia. rewrite Z.mod_small by lia. destruct (x <? 2 ^ 63) eqn:X; lia. }
  set (a := u32 (u32 (u32 (u32 (i * Ty) + k) * W) + u32 (j * Tx))). set (b := u32 (Z.min (u32 (u32 (j * Tx) + Tx)) W - u32 (j * Tx))).
  assert (Ha : 0 <= a < 2 ^ 32) by apply U. assert (Hb' : 0 <= b < 2 ^ 32) by apply U. rewrite (S64 (bpp * a)), (S64 (b * bpp)) by nia.
  destruct (_ <? u64 _); [eauto|]. destruct (_ <? b * bpp); [eauto|]. assert (U6 : 0 <= u64 (Tx * bpp)) by (unfold u64; apply Z.mod_pos_bound; reflexivity). assert (P0 : 0 <= k * u64 (Tx * bpp)) by (apply Z.mul_nonneg_nonneg; lia).
  rewrite (proj2 (Z.ltb_ge (off + k * u64 (Tx * bpp)) 0)) by lia. rewrite (proj2 (Z.ltb_ge (bpp * a) 0)), (proj2 (Z.ltb_ge (b * bpp) 0)) by nia. cbn [orb]. eauto.
Qed.

Section Wr.
Variables (E : env) (v3 fs : bool) (bpp dt : Z) (d0 : dim) (mids : list dim) (dy dx : dim) (c0 : config).
Let ds := d0 :: mids ++ [dy; dx].
Hypothesis Hf : fits bpp d0 mids dy dx.
Hypothesis Hbpp : bytes_of_type dt = Ok bpp.
Hypothesis Hsh : v3 = true -> fits_shards d0 mids dy dx.
Hypothesis Hkind : v3 = true -> fs = true.
Hypothesis HQ : fs = true -> forall k q, e_stat E k q = true.
Hypothesis Hds : c_dims c0 = ds.
Hypothesis Hdt : c_dtype c0 = dt.
Hypothesis Hbk : match c_bucket c0 with None => fs = true | Some _ => fs = false end.
Let nbuf := prodZ (map nch (mids ++ [dy; dx])).
Notation s3 := (fs = false).

Record wok (a : writer) : Prop := {
  k_cfg : a_cfg a = c0; k_v3 : a_v3 a = v3; k_bufs : a_bufs a = [] \/ zlen (a_bufs a) = nbuf; k_frames : 0 <= a_frames a < 2 ^ 32;
  k_sinks : Forall (slot fs) (a_sinks a); k_files : v3 = true -> Forall (fun o => o <> None) (a_sinks a); k_meta : slot fs (a_meta a) }.
Definition Wi (aw : AW) : Prop := wok (fst aw).
Definition wsafe {A} (m : M AW A) : Prop := tri s3 Wi m (fun _ => Wi) Wi.

Lemma write_chunks_total a data : a_cfg a = c0 -> 0 <= a_frames a < 2 ^ 32 -> zlen (a_bufs a) = nbuf ->
  exists bufs w, write_frame_to_chunks a data = Ok (bufs, w) /\ zlen bufs = nbuf.
Proof.
  intros Hc Hfr Hnb. set (f := a_frames a) in *. pose proof (fit_bpp _ _ _ _ _ Hf) as Hb.
  destruct (fr_ok bpp d0 mids dy dx Hf) as (HH & HW & HTy & HTx & HyB & HxB & HHW).
  destruct (nch_bound _ _ _ _ _ Hf) as (HN & Hny & Hnx & Hnn).
  assert (Enb : nbuf = prodZ (map nch mids) * (nch dy * nch dx)) by apply nch_prod_split.
  pose proof (frame_group_bound bpp d0 mids dy dx Hf f) as HG.
  unfold write_frame_to_chunks. rewrite Hc, Hds, Hdt, Hbpp. cbn [obind]. fold f.
  unfold ds. rewrite width_dim_eq, height_dim_eq.
  rewrite (proj2 (Z.eqb_neq (d_chunk dx) 0)), (proj2 (Z.eqb_neq (d_chunk dy) 0)) by lia. cbn [orb].
  rewrite (tile_group_offset_exact bpp _ _ _ _ Hf) by auto. cbn [obind]. rewrite (chunk_internal_offset_exact bpp dt _ _ _ _ Hf Hbpp) by lia. cbn [obind].
  rewrite (u32_id (d_array dx + d_chunk dx - 1)), (u32_id (d_array dy + d_chunk dy - 1)) by lia.
  change ((d_array dx + d_chunk dx - 1) / d_chunk dx) with (nch dx). change ((d_array dy + d_chunk dy - 1) / d_chunk dy) with (nch dy).
  fold (frame_group mids f). set (G := frame_group mids f * (nch dy * nch dx)).
  assert (Hyx : 0 < nch dy * nch dx) by (apply Z.mul_pos_pos; lia).
  assert (HG0 : 0 <= G) by (apply Z.mul_nonneg_nonneg; lia).
  assert (HGn : G + nch dy * nch dx <= nbuf).
  { rewrite Enb. assert ((frame_group mids f + 1) * (nch dy * nch dx) <= prodZ (map nch mids) * (nch dy * nch dx)) by (apply Z.mul_le_mono_nonneg_r; lia). unfold G; lia. }
  assert (Hn31 : nbuf < 2 ^ 31) by (rewrite Enb; exact Hnn).
  assert (Hnyn : nch dy < 2 ^ 31 /\ nch dx < 2 ^ 31 /\ nch dy * nch dx < 2 ^ 31).
  { clear - HGn HG0 Hn31 Hny Hnx Hyx. nia. }
  unfold int_range. rewrite (proj2 (Z.ltb_lt (nch dy) _)), (proj2 (Z.ltb_lt (nch dx) _)), (proj2 (Z.ltb_lt (d_chunk dy) _)) by lia. cbn [obind].
  match goal with |- exists _ _, (let? r := floop ?F ?l ?z in _) = _ /\ _ =>
    destruct (floop_total F (fun st : list (list Z) * Z => zlen (fst st) = nbuf) l) with (s := z) as ([[bufs w] b] & X & Y) end; [|exact Hnb|rewrite X; cbn [obind fst] in *; eauto].
  intros i st Hi Hst. apply (floop_total _ (fun st : list (list Z) * Z => zlen (fst st) = nbuf)); [|exact Hst]. clear st Hst. intros j [bufs w] Hj Hst. cbn [fst] in Hst.
  assert (Ri : 0 <= i < nch dy). { unfold zseq in Hi. apply in_map_iff in Hi as (x & <- & Hx). apply in_seq in Hx. lia. }
  assert (Rj : 0 <= j < nch dx). { unfold zseq in Hj. apply in_map_iff in Hj as (x & <- & Hx). apply in_seq in Hx. lia. }
  assert (Rij : 0 <= i * nch dx + j < nch dy * nch dx). { clear - Ri Rj. nia. }
  assert (Ri2 : 0 <= i * nch dx < nch dy * nch dx). { clear - Ri Rj. nia. }
  rewrite (u32_id (i * nch dx)), (u32_id (G + i * nch dx)), (u32_id (G + i * nch dx + j)) by lia.
  destruct (nth_error bufs (Z.to_nat (G + i * nch dx + j))) as [chunk|] eqn:Hn.
  2: { apply nth_error_None in Hn. unfold zlen in Hst. lia. }
  match goal with |- context [floop ?F ?l ?z] => destruct (floop_total F (fun _ => True) l) with (s := z) as ([[ch' w'] b] & X & _) end; auto.
  { intros k st Hk _. unfold zseq in Hk. apply in_map_iff in Hk as (k' & <- & _). pose proof (chunk_internal_offset_range bpp d0 mids dy dx Hf f) as RNG. destruct (copy_row_total data bpp (d_array dy) (d_array dx) (d_chunk dy) (d_chunk dx) (s64 (ravel (d_chunk d0 :: map d_chunk mids) ((f / prodZ (map d_array mids)) mod d_chunk d0 :: zip_with Z.modulo (mid_coords mids f) (map d_chunk mids)) * (d_chunk dy * d_chunk dx * bpp))) i j st (Z.of_nat k') Hb ltac:(rewrite s64_id by lia; lia) ltac:(lia)) as [r Hr]. exists r. split; [exact Hr|auto]. }
  rewrite X. cbn [obind]. eexists. split; [reflexivity|]. cbn [fst]. unfold zlen in *. rewrite upd_length. auto.
Qed.

Lemma make_buffers_total a : a_cfg a = c0 -> exists a', make_buffers a = Ok a' /\ (wok a -> wok a') /\ zlen (a_bufs a') = nbuf /\ a_frames a' = a_frames a.
Proof.
  intros Hc. unfold make_buffers. rewrite Hc, Hds, Hdt. unfold ds. rewrite (number_of_chunks_exact bpp _ _ _ _ Hf), (bytes_per_chunk_exact bpp dt _ _ _ _ Hf Hbpp).
  destruct (nch_bound _ _ _ _ _ Hf) as (HN & Hny & Hnx & Hnn).
  assert (L : forall x : list Z, zlen (zrep x (prodZ (map nch mids) * (nch dy * nch dx))) = nbuf).
  { intros x. unfold zlen, zrep. rewrite repeat_length. unfold nbuf. rewrite nch_prod_split. rewrite Z2Nat.id; [reflexivity|]. apply Z.mul_nonneg_nonneg; [lia|]. apply Z.mul_nonneg_nonneg; lia. }
  eexists. split; [reflexivity|]. split; [|split; [apply L|reflexivity]]. intros [a1 a2 a3 a4 a5 a6 a7]. constructor; cbn [set_bufs a_cfg a_v3 a_bufs a_frames a_sinks a_meta]; auto.
Qed.

(** rules *)
Lemma ws_bind {A B} (m : M AW A) (f : A -> M AW B) : wsafe m -> (forall a, wsafe (f a)) -> wsafe (bind m f).
Proof. intros H1 H2. eapply t_bind; [apply H1|]. intros a. apply H2. Qed.
Lemma ws_ret {A} (a : A) : wsafe (ret a).
Proof. apply t_ret. auto. Qed.
Lemma ws_expect b e : wsafe (expectM b e).
Proof. apply t_expect; auto. Qed.
Lemma ws_throw {A} e : wsafe (@throwM AW A e).
Proof. apply t_throw. auto. Qed.
Lemma t_getA {B} hg (P : AW -> Prop) (f : writer -> M AW B) Q R : (forall a, tri hg (fun aw => P aw /\ fst aw = a) (f a) Q R) -> tri hg P (a <- getA ;; f a) Q R.
Proof. intros H [a w] X. unfold bind, getA. cbn [fst]. apply (H a (a, w)). auto. Qed.
Lemma ws_get {B} (f : writer -> M AW B) : (forall a, wok a -> wsafe (f a)) -> wsafe (a <- getA ;; f a).
Proof. intros H [a w] X. unfold bind, getA. cbn [fst]. apply (H a X (a, w)). exact X. Qed.
Lemma ws_mod f : (forall a, wok a -> wok (f a)) -> wsafe (modA f).
Proof. intros H [a w] X. apply H. exact X. Qed.
Lemma t_onWd {A} (P : AW -> Prop) (V : A -> Prop) (m : M world A) : wt s3 True V m -> (forall a w w', P (a, w) -> P (a, w')) -> tri s3 P (onWd m) (fun v aw => V v /\ P aw) P.
Proof. intros H K [a w] X. unfold onWd. cbn [fst snd]. specialize (H w Logic.I). destruct (m w) as [w' [v|e| |]]; eauto. Qed.
Lemma ws_onWd {A} (m : M world A) : wt s3 True anyv m -> wsafe (onWd m).
Proof. intros H. eapply t_weak; [apply (t_onWd Wi anyv m H)|..]; auto. intros v s X; apply X. Qed.
Lemma ws_lift {A} (o : outcome A) : o <> UB -> o <> Hang -> wsafe (liftM o).
Proof. intros H1 H2. apply t_lift. destruct o; auto; congruence. Qed.

Ltac wk := match goal with H : wok _ |- wok _ => destruct H; constructor; cbn [set_bufs set_toflush set_frames set_append set_final set_sinks set_meta set_tables set_offsets a_cfg a_v3 a_bufs a_frames a_sinks a_meta] in *; auto end.

Lemma ws_compress : wsafe (compress_buffers E).
Proof.
  unfold compress_buffers. apply ws_get. intros a Ha. rewrite (k_cfg _ Ha). destruct (c_comp c0) as [ps|]; [|apply ws_ret]. rewrite Hdt, Hbpp. apply ws_bind; [apply t_lift; auto|]. intros b.
  apply t_miter. intros i _. apply ws_get. intros a' Ha'. destruct (e_compress E ps b (nth i (a_bufs a') [])).
  - apply ws_bind; [|intros; apply ws_onWd, w_done]. apply ws_mod. intros x Hx. wk. destruct k_bufs0 as [X|X]; [left; rewrite X; destruct i; reflexivity|right; unfold zlen in *; rewrite upd_length; auto].
  - apply ws_onWd, w_done.
Qed.

(** *** Sinks *)
Lemma files_slot l : fs = true -> Forall is_file l -> Forall (slot fs) l /\ Forall (fun o => o <> None) l.
Proof. intros Hfs H. split; eapply Forall_impl; try exact H; intros o [f ->]; cbn; congruence. Qed.
Lemma s3s_wt b ps : fs = false -> wt s3 True (fun l => Forall (slot fs) l /\ Forall (fun o => o <> None) l) (mfold (fun acc k => s <- s3_sink b k ;; ret (acc ++ [Some (SS3 s)])%list) ps []).
Proof.
  intros Hfs. apply w_mfold; [|auto]. intros acc k _ [H1 H2]. eapply w_bind; [apply w_s3sink|]. intros s (S1 & S2 & S3). apply w_ret. rewrite !Forall_app. repeat split; auto.
  - repeat constructor; auto; unfold part_size; lia.
  - repeat constructor; auto. discriminate.
Qed.
Lemma parts_tot a d : parts_along a d <> UB /\ parts_along a d <> Hang.
Proof. unfold parts_along. apply parts_total. Qed.
(** after make_data_sinks: all the sinks exist *)
Definition Wn (aw : AW) : Prop := Wi aw /\ Forall (fun o => o <> None) (a_sinks (fst aw)).
Lemma ws_make_data : tri s3 Wi (make_data_sinks E) (fun ok aw => Wi aw /\ (ok = true -> Wn aw)) Wi.
Proof.
  unfold make_data_sinks. apply t_getA. intros a. apply t_pre with (P := fun aw => wok a /\ Wi aw); [|intros aw [A <-]; split; exact A]. apply t_fact. intros Ha.
  eapply t_bind with (Q := fun r aw => (forall l, r = Some l -> Forall (slot fs) l /\ Forall (fun o => o <> None) l) /\ Wi aw).
  - apply t_onWd; [|auto]. rewrite (k_cfg _ Ha). destruct (c_bucket c0) as [b|].
    + unfold make_data_sinks_s3. eapply w_bind; [apply w_exp|]. intros _ _. eapply w_bind; [apply w_paths; [discriminate|exact Logic.I|apply parts_tot]|]. intros p _. destruct (b =? "")%string; [apply w_ret; discriminate|].
      eapply w_bind; [apply s3s_wt; exact Hbk|]. intros l Hl. apply w_ret. intros l' X. injection X as <-. exact Hl.
    + eapply w_weak; [apply w_data_fs; [auto|exact Logic.I|apply parts_tot]|]. intros o Ho l ->. apply files_slot; auto.
  - intros [l|].
    + apply t_fact. intros Hl. destruct (Hl l eq_refl) as [L1 L2]. apply t_bind with (Q := fun _ => Wn).
      * intros [x w] Hx. cbn. unfold Wi in Hx. cbn [fst] in Hx. split; [cbn; unfold Wi; cbn [fst]; wk|exact L2].
      * intros _. apply t_ret. intros aw [A B]. split; [exact A|]. intros _. split; auto.
    + apply t_ret. intros aw [_ A]. split; [exact A|]. discriminate.
Qed.

Lemma ws_make_meta : tri s3 Wi (make_metadata_sink E) (fun ok aw => Wi aw /\ (ok = true -> a_meta (fst aw) <> None)) Wi.
Proof.
  unfold make_metadata_sink. apply t_getA. intros a. destruct (a_meta a) as [k|] eqn:M.
  { apply t_ret. intros aw [A B]. split; auto. rewrite B, M. discriminate. }
  apply t_pre with (P := fun aw => wok a /\ Wi aw); [|intros aw [A <-]; split; exact A]. apply t_fact. intros Ha.
  eapply t_bind with (Q := fun r aw => slot fs r /\ Wi aw).
  - apply t_onWd; [|auto]. rewrite (k_cfg _ Ha). destruct (c_bucket c0) as [b|].
    + unfold make_sink_s3. eapply w_bind; [apply w_exp|]. intros _ _. eapply w_bind; [apply w_exp|]. intros _ _. eapply w_bind with (V := anyv).
      { intros w _. pose proof (w_bucket E b w Logic.I) as X. destruct (bucket_exists E b w) as [w' [v|e| |]]; auto. }
      intros ok _. destruct ok; [|apply w_ret; exact Logic.I]. eapply w_bind; [apply w_s3sink|]. intros s (S1 & S2 & S3). apply w_ret. cbn. split; [exact Hbk|]. split; unfold part_size; lia.
    + eapply w_weak; [apply w_sink_fs; [auto|exact Logic.I]|]. intros o [->|[f ->]]; cbn; auto.
  - intros [k|].
    + apply t_fact. intros Hk. apply t_bind with (Q := fun _ aw => Wi aw /\ a_meta (fst aw) <> None).
      * intros [x w] Hx. cbn. unfold Wi in *. cbn [fst] in *. split; [wk|discriminate].
      * intros _. apply t_ret. intros aw [A B]. auto.
    + apply t_ret. intros aw [_ A]. split; [exact A|]. discriminate.
Qed.

Lemma append_size_total a : append_size a <> UB /\ append_size a <> Hang.
Proof.
  unfold append_size. generalize (a_frames a). induction (rev (mid_dims (c_dims (a_cfg a)))) as [|d l IH]; intros n; cbn [ofold]; [split; discriminate|].
  destruct (d_array d =? 0); cbn [obind]; [split; discriminate|apply IH].
Qed.

Lemma ws_on_meta {A} (m : M KW A) : tri s3 (Ik fs) m (fun _ => Ik fs) (Ik fs) -> tri s3 (fun aw => Wi aw /\ a_meta (fst aw) <> None) (on_meta m) (fun _ => Wi) Wi.
Proof.
  intros H [a w] [Ha Hm]. unfold on_meta, Wi in *. cbn [fst] in *. destruct (a_meta a) as [k|] eqn:M; [|congruence].
  pose proof (k_meta _ Ha) as K. rewrite M in K. specialize (H (k, w) K). destruct (m (k, w)) as [[k' w'] [v|e| |]]; cbn [fst]; auto; wk.
Qed.
Lemma k_write0 off d : fs = true \/ off = 0 -> tri s3 (Ik fs) (sink_write E off d) (fun _ => Ik fs) (Ik fs).
Proof. intros H. eapply t_weak; [apply k_write; exact H|auto|..]; cbn; tauto. Qed.

Lemma ws_write_meta : wsafe (write_array_metadata E).
Proof.
  unfold write_array_metadata. eapply t_bind; [apply ws_make_meta|]. intros ok. destruct ok; [|apply t_ret; tauto].
  apply t_pre with (P := fun aw => Wi aw /\ a_meta (fst aw) <> None); [|tauto].
  apply t_getA. intros a. apply t_pre with (P := fun aw => wok a /\ (Wi aw /\ a_meta (fst aw) <> None)); [|intros aw [[A B] <-]; auto]. apply t_fact. intros Ha. cbn zeta.
  assert (L : forall (k : Z -> M AW bool), (forall n, tri s3 (fun aw => Wi aw /\ a_meta (fst aw) <> None) (k n) (fun _ => Wi) Wi) ->
     tri s3 (fun aw => Wi aw /\ a_meta (fst aw) <> None) (n <- liftM (append_size a) ;; k n) (fun _ => Wi) Wi).
  { intros k Hk. eapply t_bind with (Q := fun _ aw => Wi aw /\ a_meta (fst aw) <> None); [|intros; apply Hk]. apply t_lift. destruct (append_size_total a). destruct (append_size a); auto; tauto. }
  destruct (a_v3 a).
  - apply L. intros n. destruct (dtype_v3 _); [|apply t_throw; tauto]. apply ws_on_meta, k_write0. auto.
  - destruct (dtype_v2 _); [|apply t_ret; tauto]. apply L. intros n. apply ws_on_meta, k_write0. auto.
Qed.

(** *** The jobs of a flush, [n] sinks *)
Definition Wl (n : nat) (aw : AW) : Prop := Wn aw /\ List.length (a_sinks (fst aw)) = n.
Lemma wl_onWd n {A} (m : M world A) : wt s3 True anyv m -> tri s3 (Wl n) (onWd m) (fun _ => Wl n) (Wl n).
Proof. intros H. eapply t_weak; [apply (t_onWd (Wl n) anyv m H)|..]; auto. intros v s X; apply X. Qed.
Lemma forall_upd {A} (P : A -> Prop) l i x : Forall P l -> P x -> Forall P (upd l i x).
Proof.
  unfold upd. intros H Hx. apply Forall_app. split; [apply Forall_forall; intros y Hy; rewrite Forall_forall in H; apply H; rewrite <- (firstn_skipn i l); apply in_or_app; auto|].
  destruct (skipn i l) as [|y t] eqn:Y; constructor; auto. apply Forall_forall. intros z Hz. rewrite Forall_forall in H. apply H. rewrite <- (firstn_skipn i l), Y. apply in_or_app. right. right. auto.
Qed.
Lemma wl_on_sink n i {A} (m : M KW A) : (i < n)%nat -> tri s3 (Ik fs) m (fun _ => Ik fs) (Ik fs) -> tri s3 (Wl n) (on_sink i m) (fun _ => Wl n) (Wl n).
Proof.
  intros Hi H [a w] [[Ha Hn] Hl]. unfold on_sink, Wi in *. cbn [fst] in *.
  destruct (nth_error (a_sinks a) i) as [o|] eqn:N; [|apply nth_error_None in N; lia]. rewrite (nth_error_nth _ _ None N).
  rewrite Forall_forall in Hn. pose proof (Hn o (nth_error_In _ _ N)) as N1. destruct o as [k|]; [|congruence].
  pose proof (proj1 (Forall_forall _ _) (k_sinks _ Ha) _ (nth_error_In _ _ N)) as K. specialize (H (k, w) K).
  assert (G : forall k' w', Ik fs (k', w') -> Wl n (set_sinks a (upd (a_sinks a) i (Some k')), w')).
  { intros k' w' Hk. rewrite <- Forall_forall in Hn. assert (F2 : Forall (fun o : option sink => o <> None) (upd (a_sinks a) i (Some k'))) by (apply forall_upd; auto; discriminate).
    split; [|cbn; rewrite upd_length; auto]. split; [|exact F2]. unfold Wi. cbn [fst]. wk. apply forall_upd; auto. }
  destruct (m (k, w)) as [[k' w'] [v|e| |]]; auto.
Qed.
Lemma wl_bind n {A B} (m : M AW A) (f : A -> M AW B) : tri s3 (Wl n) m (fun _ => Wl n) (Wl n) -> (forall a, tri s3 (Wl n) (f a) (fun _ => Wl n) (Wl n)) -> tri s3 (Wl n) (bind m f) (fun _ => Wl n) (Wl n).
Proof. intros H1 H2. eapply t_bind; [apply H1|]. intros a. apply H2. Qed.
Lemma wl_catch n {A} (m : M AW A) h : tri s3 (Wl n) m (fun _ => Wl n) (Wl n) -> (forall e, tri s3 (Wl n) (h e) (fun _ => Wl n) (Wl n)) -> tri s3 (Wl n) (catchM m h) (fun _ => Wl n) (Wl n).
Proof. intros H1 H2. eapply t_catch; [apply H1|]. intros a. apply H2. Qed.
Lemma wl_ret n {A} (a : A) : tri s3 (Wl n) (ret a) (fun _ => Wl n) (Wl n).
Proof. apply t_ret. auto. Qed.
Lemma wl_get n {B} (f : writer -> M AW B) : (forall a, wok a -> tri s3 (Wl n) (f a) (fun _ => Wl n) (Wl n)) -> tri s3 (Wl n) (a <- getA ;; f a) (fun _ => Wl n) (Wl n).
Proof. intros H [a w] X. unfold bind, getA. cbn [fst]. apply (H a (proj1 (proj1 X)) (a, w)). exact X. Qed.
Lemma wl_lift n {A} (o : outcome A) : o <> UB -> o <> Hang -> tri s3 (Wl n) (liftM o) (fun _ => Wl n) (Wl n).
Proof. intros H1 H2. apply t_lift. destruct o; auto; congruence. Qed.

Lemma wl_v2_job n i : (i < n)%nat -> tri s3 (Wl n) (v2_job E i) (fun _ => Wl n) (Wl n).
Proof.
  intros Hi. unfold v2_job. apply wl_get. intros a Ha. apply wl_bind; [|intros; apply wl_onWd, w_done]. apply wl_catch; [|intros; apply wl_ret].
  apply wl_bind; [apply wl_on_sink; auto; apply k_write0; auto|]. intros ok. apply wl_bind; [apply t_expect; auto|]. intros; apply wl_ret.
Qed.
Lemma ws_flush_v2 : wsafe (flush_impl_v2 E).
Proof.
  unfold flush_impl_v2. apply ws_get. intros a Ha. apply ws_bind; [apply ws_expect|]. intros _. eapply t_bind; [apply ws_make_data|]. intros ok. destruct ok; [|apply t_ret; tauto].
  apply t_pre with (P := Wn); [|intros aw [_ X]; auto]. apply t_getA. intros a'. set (n := List.length (a_sinks a')).
  apply t_pre with (P := Wl n); [|intros aw [A <-]; split; auto].
  eapply t_weak with (Q := fun _ => Wl n) (R := Wl n) (P := Wl n); [|auto|intros v s X; apply X|intros s X; apply X].
  apply wl_bind; [apply t_expect; auto|]. intros _. apply wl_bind; [|intros; apply wl_ret]. apply t_miter. intros i Hi. apply in_seq in Hi. apply wl_v2_job. lia.
Qed.

Lemma table_set_total t i v : table_set t i v <> UB /\ table_set t i v <> Hang.
Proof. unfold table_set. destruct (_ <? _); split; discriminate. Qed.
Lemma wl_mod n f : (forall a, wok a -> wok (f a)) -> (forall a, a_sinks (f a) = a_sinks a) -> tri s3 (Wl n) (modA f) (fun _ => Wl n) (Wl n).
Proof. intros H1 H2 [a w] [[A B] C]. cbn [fst] in *. split; [split|]; cbn [fst]; unfold Wi in *; cbn [fst] in *; auto; rewrite H2; auto. Qed.
Lemma wl_v3_chunk n s b ci : v3 = true -> (s < n)%nat -> Z.of_nat ci < nbuf -> tri s3 (Wl n) (v3_chunk E s b ci) (fun _ => Wl n) (Wl n).
Proof.
  intros V Hs Hc. unfold v3_chunk. apply wl_get. intros a Ha. cbn zeta. apply wl_bind.
  { apply wl_catch; [|intros; apply wl_ret]. apply wl_bind; [|intros; apply wl_ret]. apply wl_on_sink; auto. apply k_write0. left. auto. }
  intros [[] [m|]]; try apply wl_ret. apply wl_catch; [|intros; apply wl_ret]. rewrite (k_cfg _ Ha), Hds. unfold ds.
  rewrite (shard_internal_exact bpp d0 mids dy dx Hf (Hsh V)) by (split; [lia|exact Hc]).
  apply wl_bind; [apply t_lift; auto|]. intros idx. apply wl_bind; [apply wl_lift; apply table_set_total|]. intros t1. apply wl_bind; [apply wl_lift; apply table_set_total|]. intros t2.
  apply wl_bind; [|intros; apply wl_ret]. apply wl_mod; [|reflexivity]. intros x Hx. wk.
Qed.
Lemma wl_v3_chunks n s : v3 = true -> (s < n)%nat -> forall cs b, (forall c, In c cs -> Z.of_nat c < nbuf) -> tri s3 (Wl n) (v3_chunks E s cs b) (fun _ => Wl n) (Wl n).
Proof.
  intros V Hs. induction cs as [|c cs IH]; intros b H; cbn [v3_chunks]; [apply wl_ret|]. apply wl_bind; [apply wl_v3_chunk; auto; apply H; left; auto|].
  intros [[] [m|]]; try apply wl_ret. apply IH. intros; apply H; right; auto.
Qed.
Lemma wl_v3_job n tb cis s : v3 = true -> (s < n)%nat -> (forall c, In c (nth s cis []) -> Z.of_nat c < nbuf) -> tri s3 (Wl n) (v3_job E tb cis s) (fun _ => Wl n) (Wl n).
Proof.
  intros V Hs H. unfold v3_job. apply wl_bind; [apply wl_v3_chunks; auto|]. intros r. apply wl_bind; [|intros; apply wl_onWd, w_done].
  destruct r as [[] [m|]]; try apply wl_ret. destruct tb; [|apply wl_ret]. unfold v3_table. apply wl_get. intros a Ha. apply wl_catch; [|intros; apply wl_ret].
  apply wl_bind; [|intros; apply wl_ret]. apply wl_on_sink; auto. apply k_write0. left. auto.
Qed.
Lemma cis_total n k : v3 = true -> number_of_shards (c_dims c0) = Ok n -> k = 0%nat \/ Z.of_nat k = nbuf ->
  exists cis, chunks_in_shards (c_dims c0) n k = Ok cis /\ forall s c, In c (nth s cis []) -> Z.of_nat c < nbuf.
Proof.
  intros V Hn Hk. rewrite Hds in *. unfold ds in *. rewrite (number_of_shards_exact bpp d0 mids dy dx Hf (Hsh V)) in Hn. injection Hn as <-. destruct Hk as [->|Hk].
  - exists (zrep [] (prodZ (map nsh (mids ++ [dy; dx])))). split; [reflexivity|]. intros s c H. unfold zrep in H. destruct (Nat.lt_ge_cases s (Z.to_nat (prodZ (map nsh (mids ++ [dy; dx]))))).
    + rewrite (nth_error_nth _ _ [] (x := [])) in H; [destruct H|]. rewrite nth_error_repeat; auto.
    + rewrite nth_overflow in H; [destruct H|]. rewrite repeat_length. auto.
  - replace k with (Z.to_nat nbuf) by lia. eexists. split; [apply (chunks_in_shards_exact bpp d0 mids dy dx Hf (Hsh V))|]. intros s c H.
    match type of H with In _ (nth s (map ?m ?l) []) => destruct (nth_in_or_default s (map m l) []) as [X|X] end; [|rewrite X in H; destruct H].
    apply in_map_iff in X as (y & Y1 & Y2). rewrite <- Y1 in H. apply (members_lt d0 mids dy dx) in H. unfold nbuf in *. lia.
Qed.
Lemma should_roll_total a : should_rollover a <> UB /\ should_rollover a <> Hang.
Proof. unfold should_rollover. destruct (a_v3 a); [|split; discriminate]. cbn zeta. destruct (0 <? _); split; discriminate. Qed.
Lemma ws_flush_v3 : v3 = true -> wsafe (flush_impl_v3 E).
Proof.
  intros V. unfold flush_impl_v3. apply t_getA. intros a.
  eapply t_bind with (Q := fun ok aw => Wi aw /\ (ok = true -> Wn aw)).
  { destruct (a_sinks a) eqn:X; [eapply t_pre; [apply ws_make_data|tauto]|]. apply t_ret. intros aw [A B]. split; auto. intros _. split; auto. apply (k_files _ A V). }
  intros ok. destruct ok; [|apply t_ret; tauto]. apply t_pre with (P := Wn); [|intros aw [_ X]; auto]. apply t_getA. intros a'.
  apply t_pre with (P := fun aw => wok a' /\ Wl (List.length (a_sinks a')) aw); [|intros aw [A <-]; split; [exact (proj1 A)|split; auto]]. apply t_fact. intros Ha'. cbn zeta.
  rewrite (k_cfg _ Ha'). destruct (number_of_shards (c_dims c0)) as [n| | |] eqn:Hn; try (rewrite Hds in Hn; unfold ds in Hn; rewrite (number_of_shards_exact bpp d0 mids dy dx Hf (Hsh V)) in Hn; discriminate).
  eapply t_bind with (Q := fun n' aw => n' = n /\ Wl (List.length (a_sinks a')) aw); [apply t_lift; auto|]. intros n'. apply t_fact. intros ->.
  eapply t_bind with (Q := fun _ aw => zlen (a_sinks a') = n /\ Wl (List.length (a_sinks a')) aw).
  { apply t_expect; [|intros s X _; apply X]. intros s X Y. apply Z.eqb_eq in Y. auto. }
  intros _. apply t_fact. intros Hl. set (m := List.length (a_sinks a')).
  destruct (cis_total n (List.length (a_bufs a')) V Hn) as (cis & Hc & Hlt).
  { destruct (k_bufs _ Ha') as [->|X]; [left; reflexivity|right; exact X]. }
  rewrite Hc. eapply t_bind with (Q := fun c' aw => c' = cis /\ Wl m aw); [apply t_lift; auto|]. intros c'. apply t_fact. intros ->.
  eapply t_weak with (Q := fun _ => Wl m) (R := Wl m) (P := Wl m); [|auto|intros v s X; apply X|intros s X; apply X].
  apply wl_bind. { destruct (a_final a'); [apply wl_ret|]. apply wl_lift; apply should_roll_total. }
  intros roll. apply wl_bind.
  { apply t_miter. intros i Hi. apply in_seq in Hi. apply wl_v3_job; [auto|unfold m, zlen in *; lia|intros c; apply Hlt]. }
  intros _. apply wl_bind; [|intros; apply wl_ret]. destruct roll; [|apply wl_ret]. apply wl_mod; [|reflexivity]. intros x Hx. wk.
Qed.
Lemma ws_flush_impl : wsafe (flush_impl E).
Proof. unfold flush_impl. apply ws_get. intros a Ha. destruct (a_v3 a) eqn:V; [apply ws_flush_v3; rewrite <- V; symmetry; exact (k_v3 _ Ha)|apply ws_flush_v2]. Qed.

(** *** Closing *)
(** the slots may be empty *)
Record wok0 (a : writer) : Prop := {
  q_cfg : a_cfg a = c0; q_v3 : a_v3 a = v3; q_bufs : a_bufs a = [] \/ zlen (a_bufs a) = nbuf; q_frames : 0 <= a_frames a < 2 ^ 32;
  q_sinks : Forall (slot fs) (a_sinks a); q_meta : slot fs (a_meta a) }.
Lemma wok_0 a : wok a -> wok0 a.
Proof. intros []. constructor; auto. Qed.
Definition W0 (aw : AW) : Prop := wok0 (fst aw).
Lemma w0_Wi aw : s3 -> W0 aw -> Wi aw.
Proof. intros Hs []. constructor; auto. intros V. rewrite (Hkind V) in Hs. discriminate. Qed.
Lemma ws_on_slot i : tri s3 W0 (on_slot i (finalize_sink E)) (fun ok aw => W0 aw /\ (fs = true -> ok = true)) (fun aw => s3 /\ W0 aw).
Proof.
  intros [a w] Ha. unfold on_slot, W0 in *. cbn [fst] in *.
  assert (K : slot fs (nth i (a_sinks a) None)).
  { destruct (nth_in_or_default i (a_sinks a) None) as [X|X]; [|rewrite X; exact Logic.I]. apply (proj1 (Forall_forall _ _) (q_sinks _ Ha) _ X). }
  pose proof (k_final E fs (nth i (a_sinks a) None, w) K) as H.
  assert (G : forall o', slot fs o' -> wok0 (set_sinks a (upd (a_sinks a) i o'))). { intros o' Ho. destruct Ha. constructor; cbn; auto. apply forall_upd; auto. }
  destruct (finalize_sink E (nth i (a_sinks a) None, w)) as [[o' w'] [v|e| |]]; cbn [fst] in *; auto; destruct H as [H1 H2]; split; auto; try tauto.
Qed.
Lemma ws_close : tri s3 W0 (close_sinks E) (fun _ => Wi) (fun aw => s3 /\ W0 aw).
Proof.
  unfold close_sinks. apply t_getA. intros a. apply t_pre with (P := W0); [|tauto]. eapply t_bind with (Q := fun _ => W0).
  - apply t_miter. intros i _. eapply t_bind; [apply ws_on_slot|]. intros ok. apply t_expect; [intros s X _; apply X|]. intros s [X Y] ->. split; auto. destruct fs; auto. specialize (Y eq_refl). discriminate.
  - intros _ [x w] Hx. unfold W0, Wi in *. cbn [fst modA] in *. destruct Hx. constructor; cbn; auto.
Qed.
Lemma ws_rollover : wsafe (rollover E).
Proof.
  unfold rollover. eapply t_bind with (Q := fun _ => Wi).
  - eapply t_weak; [apply ws_close|..]; auto; [intros s X; apply wok_0; exact X|]. intros s [X Y]. apply w0_Wi; auto.
  - intros _. apply ws_mod. intros a Ha. wk.
Qed.
Lemma ws_flush : wsafe (flush E).
Proof.
  unfold flush. apply ws_get. intros a Ha. destruct (_ =? 0); [apply ws_ret|]. apply ws_bind; [apply ws_compress|]. intros _. apply ws_bind; [apply ws_flush_impl|]. intros ok.
  apply ws_bind; [apply ws_expect|]. intros _. apply ws_get. intros a1 Ha1. apply ws_bind; [apply ws_lift; apply should_roll_total|]. intros roll.
  apply ws_bind; [destruct roll; [apply ws_rollover|apply ws_ret]|]. intros _. apply ws_get. intros a2 Ha2. apply ws_bind.
  { destruct (roll || a_final a2); [|apply ws_ret]. apply ws_bind; [apply ws_write_meta|]. intros; apply ws_expect. }
  intros _. apply ws_get. intros a3 Ha3. destruct (make_buffers_total a3 (k_cfg _ Ha3)) as (a4 & X & Y & Z & _). rewrite X.
  apply t_bind with (Q := fun v aw => v = a4 /\ Wi aw); [apply t_lift; auto|]. intros v. apply t_fact. intros ->. apply ws_mod. intros x _. specialize (Y Ha3). wk.
Qed.
Lemma should_flush_total a : should_flush a <> UB /\ should_flush a <> Hang.
Proof. unfold should_flush. cbn zeta. destruct (0 <? _); split; discriminate. Qed.

(** a frame of the right size is accepted as a whole, or an exception is thrown *)
Lemma ws_write_frame data : zlen data = d_array dy * d_array dx * bpp -> tri s3 Wi (write_frame E data) (fun n aw => n = zlen data /\ Wi aw) Wi.
Proof.
  intros Hz. unfold write_frame. apply t_getA. intros a. apply t_pre with (P := fun aw => wok a /\ (Wi aw /\ fst aw = a)); [|intros aw [A <-]; auto]. apply t_fact. intros Ha.
  rewrite (k_cfg _ Ha), Hds, Hdt. unfold ds. rewrite (bytes_of_frame_exact bpp dt _ _ _ _ Hf Hbpp).
  apply t_bind with (Q := fun v aw => v = d_array dy * d_array dx * bpp /\ (Wi aw /\ fst aw = a)); [apply t_lift; auto|]. intros v. apply t_fact. intros ->. rewrite <- Hz, Z.eqb_refl. cbn [negb].
  eapply t_bind with (Q := fun _ aw => Wi aw /\ zlen (a_bufs (fst aw)) = nbuf).
  { destruct (a_bufs a) as [|b0 bs] eqn:B.
    - destruct (make_buffers_total a (k_cfg _ Ha)) as (a4 & X & Y & Z & _). rewrite X. apply t_bind with (Q := fun v aw => v = a4); [apply t_lift; auto|]. intros v [x w] ->. cbn. unfold Wi. cbn. auto.
    - apply t_ret. intros aw [A <-]. split; auto. destruct (k_bufs _ A) as [X|X]; [congruence|exact X]. }
  intros _. apply t_getA. intros a1. apply t_pre with (P := fun aw => (wok a1 /\ zlen (a_bufs a1) = nbuf) /\ Wi aw); [|intros aw [[A B] <-]; split; auto; split; auto]. apply t_fact. intros [Ha1 Hb1].
  destruct (write_chunks_total a1 data (k_cfg _ Ha1) (k_frames _ Ha1) Hb1) as (bufs & wr & X & Y). rewrite X.
  apply t_bind with (Q := fun v aw => v = (bufs, wr) /\ Wi aw); [apply t_lift; auto|]. intros v. apply t_fact. intros ->.
  eapply t_weak with (P := Wi) (R := Wi) (Q := fun n aw => n = zlen data /\ Wi aw); auto.
  apply t_bind with (Q := fun _ => Wi); [apply ws_mod; intros x Hx; wk|]. intros _. eapply t_bind with (Q := fun _ aw => wr = zlen data /\ Wi aw).
  { apply t_expect; auto. intros s A B. apply Z.eqb_eq in B. auto. }
  intros _. apply t_fact. intros ->. apply t_bind with (Q := fun _ => Wi).
  { apply ws_mod. intros x Hx. wk. unfold u32. apply Z.mod_pos_bound. reflexivity. }
  intros _. apply t_getA. intros a2. apply t_pre with (P := Wi); [|tauto]. apply t_bind with (Q := fun _ => Wi); [apply ws_lift; apply should_flush_total|]. intros sf.
  apply t_bind with (Q := fun _ => Wi); [destruct sf; [apply ws_flush|apply ws_ret]|]. intros _. apply t_ret. auto.
Qed.

(** finalize_array: never throws with files *)
Lemma ws_finalize : tri s3 Wi (finalize_array E) (fun _ => Wi) (fun aw => s3 /\ Wi aw).
Proof.
  unfold finalize_array. eapply t_bind with (Q := fun _ => Wi). { intros [x w] Hx. unfold Wi in *. cbn in *. wk. }
  intros _. eapply t_bind with (Q := fun _ => Wi).
  { eapply t_catch with (R1 := Wi); [|intros; apply t_ret; auto]. apply ws_bind; [apply ws_flush|]. intros; apply ws_ret. }
  intros ok. destruct ok; [|apply t_ret; auto]. eapply t_bind with (Q := fun _ => Wi).
  { intros [a w] Ha. unfold on_meta_slot, Wi in *. cbn [fst] in *. pose proof (k_final E fs (a_meta a, w) (k_meta _ Ha)) as H.
    assert (G : forall o', slot fs o' -> wok (set_meta a o')). { intros o' Ho. wk. }
    destruct (finalize_sink E (a_meta a, w)) as [[o' w'] [v|e| |]]; cbn [fst] in *; auto; [apply G; tauto|]. split; [tauto|apply G; tauto]. }
  intros ok2. destruct ok2; [|apply t_ret; auto]. apply t_getA. intros a. apply t_pre with (P := Wi); [|tauto]. eapply t_bind with (Q := fun _ => Wi).
  { apply t_miter. intros [[f|s]|] _; [| |apply t_ret; auto].
    - intros [x w] Hx. unfold onWd. cbn [fst snd sink_destroy]. pose proof (w_fclose False False f w Logic.I) as H. destruct (file_close f w) as [w' [v|e| |]]; [exact Hx|destruct H|destruct H|destruct H].
    - intros [x w] Hx. exact Hx. }
  intros _. eapply t_bind with (Q := fun _ => Wi); [|intros; apply t_ret; auto]. intros [x w] Hx. unfold Wi in *. cbn in *. wk.
Qed.

(** a new writer *)
Lemma ws_new a : make_writer v3 c0 = Ok a -> wok a.
Proof.
  unfold make_writer. destruct v3 eqn:V.
  - destruct (number_of_shards (c_dims c0)); cbn [obind]; try discriminate. intros H. injection H as <-. constructor; cbn; auto; try (intros; constructor); lia.
  - intros H. injection H as <-. constructor; cbn; auto; lia.
Qed.
Lemma ws_make : exists a, make_writer v3 c0 = Ok a /\ wok a.
Proof.
  assert (X : exists a, make_writer v3 c0 = Ok a).
  { unfold make_writer. destruct v3 eqn:V; [|eauto]. rewrite Hds. unfold ds. rewrite (number_of_shards_exact bpp d0 mids dy dx Hf (Hsh eq_refl)). cbn [obind]. eauto. }
  destruct X as [a X]. exists a. split; auto. apply ws_new. auto.
Qed.
End Wr.
