(** A whole session when the environment may do anything. *)
Require Import ZArith List Bool String Ascii Lia.
Require Import Verif.Base Verif.Spec Verif.Dim Verif.Limits Verif.Radix Verif.DimProofs Verif.ShardProofs Verif.Json Verif.World Verif.Writer Verif.Stream Verif.Api Verif.SettingsSpec Verif.ValidProofs Verif.StreamProofs Verif.PyramidProofs Verif.BoundProofs Verif.TileProofs Verif.SafeProofs Verif.SafeWriter.
Import ListNotations.
Open Scope string_scope. Open Scope list_scope. Open Scope Z_scope.

(** the geometry of one level *)
Record geo : Type := mkgeo { g_c : config; g_0 : dim; g_m : list dim; g_y : dim; g_x : dim }.

Lemma Forall2_length {A B} (R : A -> B -> Prop) l m : Forall2 R l m -> List.length l = List.length m.
Proof. induction 1; cbn; auto. Qed.

Section St.
Variables (E : env) (v3 fs : bool) (bpp dt : Z) (multi : bool).
Hypothesis Hbpp : bytes_of_type dt = Ok bpp.
Hypothesis Hkind : v3 = true -> fs = true.
Hypothesis HQ : fs = true -> forall k q, e_stat E k q = true.
Notation s3 := (fs = false).

Record gok (g : geo) : Prop := {
  go_f : fits bpp (g_0 g) (g_m g) (g_y g) (g_x g); go_s : v3 = true -> fits_shards (g_0 g) (g_m g) (g_y g) (g_x g);
  go_d : c_dims (g_c g) = g_0 g :: g_m g ++ [g_y g; g_x g]; go_t : c_dtype (g_c g) = dt;
  go_b : match c_bucket (g_c g) with None => fs = true | Some _ => fs = false end }.
Definition frameb (g : geo) : Z := d_array (g_y g) * d_array (g_x g) * bpp.
Definition gwok (g : geo) (a : writer) : Prop := wok v3 fs (g_m g) (g_y g) (g_x g) (g_c g) a.
(** each level has half the rows and columns of the one before *)
Fixpoint chain (g : geo) (l : list geo) : Prop :=
  gok g /\ match l with [] => True | g' :: l' => d_array (g_y g') = half (d_array (g_y g)) /\ d_array (g_x g') = half (d_array (g_x g)) /\ scale_fits bpp (d_array (g_x g)) (d_array (g_y g)) /\ dt <> dt_int8 /\ chain g' l' end.

Variables (g0 : geo) (gs : list geo).
Hypothesis Hch : chain g0 gs.
Hypothesis Hdtc : dt < dt_count.

Definition names : list string := if v3 then ["zarr.json"; "meta/root.group.json"; "meta/acquire.json"] else [".zattrs"; ".zgroup"; "0/.zattrs"; "acquire.json"].
(** [b]: the metadata sinks are still there *)
Record sok (b : bool) (s : stream) : Prop := {
  so_w : Forall2 gwok (g0 :: gs) (s_writers s); so_off : s_foff s = 0; so_buf : zlen (s_fbuf s) = frameb g0; so_d : s_dims s = c_dims (g_c g0);
  so_t : s_dtype s = dt; so_v : s_v3 s = v3; so_m : if b then map fst (s_msinks s) = names else s_msinks s = []; so_k : Forall (fun ks => slot fs (snd ks)) (s_msinks s);
  so_b : match s_bucket s with None => fs = true | Some _ => fs = false end }.
Definition Ti (b : bool) (tw : TW) : Prop := sok b (fst tw).
Notation tok b m := (tri s3 (Ti b) m (fun _ => Ti b) (Ti b)).

Lemma chain_ok : forall l g, chain g l -> Forall gok (g :: l).
Proof. induction l as [|g' l IH]; intros g [A B]; constructor; auto. apply IH. tauto. Qed.
Lemma all_gok i g : nth_error (g0 :: gs) i = Some g -> gok g.
Proof. intros H. apply (proj1 (Forall_forall _ _) (chain_ok gs g0 Hch)). eapply nth_error_In; eauto. Qed.
Lemma frame_pos g : gok g -> 0 < frameb g.
Proof. intros G. destruct (fr_ok _ _ _ _ _ (go_f _ G)) as (A & B & _). pose proof (fit_bpp _ _ _ _ _ (go_f _ G)). unfold frameb. apply Z.mul_pos_pos; [apply Z.mul_pos_pos|]; lia. Qed.

(** *** rules *)
Lemma t_getT {B} hg (P : TW -> Prop) (f : stream -> M TW B) Q R : (forall s, tri hg (fun tw => P tw /\ fst tw = s) (f s) Q R) -> tri hg P (s <- getT ;; f s) Q R.
Proof. intros H [s w] X. unfold bind, getT. cbn [fst]. apply (H s (s, w)). auto. Qed.
Lemma st_get {B} b (f : stream -> M TW B) Q R : (forall s, sok b s -> tri s3 (Ti b) (f s) Q R) -> tri s3 (Ti b) (s <- getT ;; f s) Q R.
Proof. intros H. apply t_getT. intros s [s' w] [A B0]. cbn in B0. subst s'. apply (H s A (s, w)). exact A. Qed.
Lemma st_onT {A} b (th : Prop) (V : A -> Prop) (m : M world A) : wt s3 th V m -> tri s3 (Ti b) (onT m) (fun v tw => V v /\ Ti b tw) (fun tw => th /\ Ti b tw).
Proof. intros H [s w] X. unfold onT. cbn [fst snd]. specialize (H w Logic.I). destruct (m w) as [w' [v|e| |]]; auto. Qed.
Lemma st_mod b f : (forall s, sok b s -> sok b (f s)) -> tok b (modT f).
Proof. intros H [s w] X. apply H. exact X. Qed.
Ltac sk := match goal with H : sok _ _ |- sok _ _ => destruct H; constructor; cbn [set_fbuf set_writers set_msinks set_scaled s_writers s_foff s_fbuf s_dims s_dtype s_v3 s_msinks s_bucket] in *; auto end.
Lemma st_on_writer {A} b i g (m : M AW A) (V : A -> Prop) (th : Prop) : nth_error (g0 :: gs) i = Some g ->
  tri s3 (Wi v3 fs (g_m g) (g_y g) (g_x g) (g_c g)) m (fun v aw => V v /\ Wi v3 fs (g_m g) (g_y g) (g_x g) (g_c g) aw) (fun aw => th /\ Wi v3 fs (g_m g) (g_y g) (g_x g) (g_c g) aw) ->
  tri s3 (Ti b) (on_writer i m) (fun v tw => V v /\ Ti b tw) (fun tw => th /\ Ti b tw).
Proof.
  intros Hg H [s w] X. unfold Ti in X. cbn [fst] in X. unfold on_writer. destruct (nth_error (s_writers s) i) as [a|] eqn:N.
  2: { apply nth_error_None in N. pose proof (Forall2_length _ _ _ (so_w _ _ X)) as L. pose proof (nth_error_Some (g0 :: gs) i) as K. rewrite Hg in K. assert ((i < List.length (g0 :: gs))%nat) by (apply K; discriminate). lia. }
  destruct (f2_nth _ _ _ _ _ (so_w _ _ X) N) as (g' & G1 & G2). assert (g' = g) by congruence. subst g'. specialize (H (a, w) G2).
  assert (U : forall a', gwok g a' -> sok b (set_writers s (upd (s_writers s) i a'))). { intros a' Ha'. sk. eapply f2_upd; eauto. }
  destruct (m (a, w)) as [[a' w'] [v|e| |]]; auto; destruct H as [H1 H2]; split; auto; apply U; exact H2.
Qed.
Lemma st_frame i g data : nth_error (g0 :: gs) i = Some g -> zlen data = frameb g -> tri s3 (Ti true) (on_writer i (write_frame E data)) (fun n tw => n = zlen data /\ Ti true tw) (Ti true).
Proof.
  intros Hg Hz. destruct (all_gok i g Hg) as [a1 a2 a3 a4 a5]. eapply t_weak; [eapply (st_on_writer true i g _ (fun n => n = zlen data) True Hg)|auto|auto|intros s X; apply X].
  eapply t_weak; [eapply ws_write_frame with (bpp := bpp) (dt := dt) (d0 := g_0 g); eauto|auto|auto|]. cbn. auto.
Qed.

(** *** Multiscale *)
Lemma sl_multi : forall rest pre g data, pre ++ g :: rest = g0 :: gs -> chain g rest -> zlen data = frameb g ->
  tok true (multiscale_loop E bpp (List.length rest) (S (List.length pre)) data (frameb g) (d_array (g_x g)) (d_array (g_y g))).
Proof.
  induction rest as [|g' rest IH]; intros pre g data Hp Hc Hd; cbn [List.length multiscale_loop]; [apply t_ret; auto|].
  destruct Hc as (G & Hy & Hx & Hfit & Hi8 & Hc'). apply st_get. intros s Hs. rewrite (so_t _ _ Hs).
  assert (Hb : 0 < bpp <= 8) by (apply (fit_bpp _ _ _ _ _ (go_f _ G))).
  rewrite (scale_image_ok dt bpp data _ _ _ Hfit Hi8) by (unfold frameb; lia).
  set (W2 := half (d_array (g_x g))). set (H2 := half (d_array (g_y g))).
  apply t_bind with (Q := fun v tw => v = (scaled dt (d_array (g_x g)) (d_array (g_y g)) data, W2 * H2 * bpp, W2, H2) /\ Ti true tw); [apply t_lift; auto|].
  intros v. apply t_fact. intros ->. destruct (nth (S (List.length pre)) (s_scaled s) None) as [old|]; [|apply st_mod; intros x Hx'; sk]. cbn zeta.
  set (bytes := pixels_bytes dt bpp (average_two dt (scaled dt (d_array (g_x g)) (d_array (g_y g)) data) old)).
  destruct Hfit as (F1 & F2 & F3 & F4).
  assert (P1 : 0 < W2) by (apply half_pos; lia). assert (P2 : 0 < H2) by (apply half_pos; lia).
  assert (Zb : zlen bytes = W2 * H2 * bpp).
  { unfold zlen, bytes. rewrite (pixels_bytes_length dt bpp _ Hbpp), average_length, scaled_length. fold W2 H2. nia. }
  assert (Eg : W2 * H2 * bpp = frameb g') by (unfold frameb, W2, H2; rewrite Hy, Hx; lia).
  assert (Hn : nth_error (g0 :: gs) (S (List.length pre)) = Some g').
  { rewrite <- Hp. rewrite nth_error_app2 by lia. replace (S (List.length pre) - List.length pre)%nat with 1%nat by lia. reflexivity. }
  assert (Zs : slice bytes 0 (W2 * H2 * bpp) = bytes). { unfold slice. cbn [skipn Z.to_nat]. rewrite <- Zb. unfold zlen. rewrite Nat2Z.id. apply firstn_all. }
  rewrite Zs. eapply t_bind; [apply (st_frame _ g' bytes Hn); lia|]. intros n. apply t_pre with (P := Ti true); [|tauto].
  apply t_bind with (Q := fun _ => Ti true); [apply t_expect; auto|]. intros _. apply t_bind with (Q := fun _ => Ti true); [apply st_mod; intros x Hx'; sk|]. intros _.
  rewrite Eg. unfold W2, H2. rewrite <- Hy, <- Hx. replace (S (S (List.length pre))) with (S (List.length (pre ++ [g]))) by (rewrite app_length; cbn; lia).
  apply IH; [rewrite <- app_assoc; exact Hp|exact Hc'|lia].
Qed.
Lemma st_multiscale data : zlen data = frameb g0 -> tok true (write_multiscale E data (frameb g0)).
Proof.
  intros Hz. unfold write_multiscale. apply st_get. intros s Hs. destruct (s_multi s); [|apply t_ret; auto]. rewrite (so_t _ _ Hs). rewrite (proj2 (Z.leb_gt dt_count dt)) by lia.
  rewrite Hbpp. apply t_bind with (Q := fun v tw => v = bpp /\ Ti true tw); [apply t_lift; auto|]. intros v. apply t_fact. intros ->.
  rewrite (so_d _ _ Hs). rewrite (go_d _ (all_gok 0 g0 eq_refl)). rewrite width_dim_eq, height_dim_eq.
  replace (List.length (s_writers s) - 1)%nat with (List.length gs) by (rewrite <- (Forall2_length _ _ _ (so_w _ _ Hs)); cbn; lia).
  apply (sl_multi gs [] g0 data); auto.
Qed.

(** *** Append *)
Lemma st_append_loop data : forall k fuel pos, 0 <= pos -> zlen data = pos + Z.of_nat k * frameb g0 -> (k < fuel)%nat ->
  tri s3 (Ti true) (append_loop E fuel data pos pos) (fun n tw => n = zlen data /\ Ti true tw) (Ti true).
Proof.
  pose proof (frame_pos g0 (all_gok 0 g0 eq_refl)) as Fp.
  induction k as [|k IH]; intros fuel pos H0 Hz Hk; destruct fuel as [|f]; try lia; cbn [append_loop].
  - rewrite (proj2 (Z.ltb_ge pos _)) by lia. apply t_ret. intros; split; auto; lia.
  - rewrite (proj2 (Z.ltb_lt pos _)) by lia. apply st_get. intros s Hs. cbn zeta. rewrite (so_off _ _ Hs), (so_buf _ _ Hs). rewrite Z.ltb_irrefl.
    assert (Hk1 : Z.of_nat (S k) * frameb g0 = frameb g0 + Z.of_nat k * frameb g0) by lia.
    assert (0 <= Z.of_nat k * frameb g0) by (apply Z.mul_nonneg_nonneg; lia).
    rewrite (proj2 (Z.ltb_ge _ (frameb g0))) by lia. rewrite (proj2 (Z.ltb_ge (zlen data) _)) by lia.
    assert (Zs : zlen (slice data pos (frameb g0)) = frameb g0) by (apply slice_length; lia).
    eapply t_bind; [apply (st_frame 0 g0 _ eq_refl Zs)|]. intros r. apply t_fact. intros ->. rewrite Zs. rewrite (proj2 (Z.eqb_neq (frameb g0) 0)) by lia.
    apply t_bind with (Q := fun _ => Ti true); [apply st_multiscale; auto|]. intros _. apply IH; lia.
Qed.
Definition told (d : list Z) (r : Z * option Z) : Prop := r = (st_success, Some (zlen d)) \/ r = (st_internal_error, None).
Definition wholes (d : list Z) : Prop := exists k, zlen d = Z.of_nat k * frameb g0.
Lemma st_api_append d : wholes d -> tri s3 (Ti true) (api_append E (Some d) true) (fun r tw => told d r /\ Ti true tw) (fun _ => False).
Proof.
  intros [k Hk]. unfold api_append. pose proof (frame_pos g0 (all_gok 0 g0 eq_refl)) as Fp. apply t_catch with (R1 := Ti true).
  - apply t_bind with (Q := fun n tw => n = zlen d /\ Ti true tw).
    + unfold append. eapply t_bind with (Q := fun _ => Ti true); [eapply t_weak; [apply (st_onT true True anyv getM (w_get _ _))|auto|intros v s X; apply X|intros s X; apply X]|]. intros w.
      apply t_bind with (Q := fun _ => Ti true); [apply t_expect; auto|]. intros _. apply (st_append_loop d k); [lia|lia|]. unfold zlen in Hk. nia.
    + intros n. apply t_fact. intros ->. apply t_ret. intros s X. split; auto. left. reflexivity.
  - intros e. apply t_ret. intros s X. split; auto. right. reflexivity.
Qed.
Lemma st_appends : forall l, Forall wholes l -> tri s3 (Ti true) (api_appends E l) (fun rs tw => Forall2 told l rs /\ Ti true tw) (fun _ => False).
Proof.
  induction l as [|d l IH]; intros H; cbn [api_appends]; [apply t_ret; auto|]. inversion H; subst. eapply t_bind; [apply st_api_append; auto|]. intros r. apply t_fact. intros Hr.
  eapply t_bind; [apply IH; auto|]. intros rs. apply t_fact. intros Hrs. apply t_ret. intros s X. split; auto.
Qed.

(** *** Metadata *)
Lemma find_key_in k l : In k (map fst l) -> exists i, find_key k l = Some i /\ (i < List.length l)%nat.
Proof.
  induction l as [|[k' o] l IH]; cbn [map fst find_key List.length]; [intros []|]. destruct (String.eqb k k') eqn:X; [intros _; exists 0%nat; split; [reflexivity|lia]|].
  intros [H|H]; [subst; rewrite String.eqb_refl in X; discriminate|]. destruct (IH H) as (i & A & B). exists (S i). rewrite A. split; [reflexivity|lia].
Qed.
Lemma upd_fst (l : list (string * option sink)) i k o k0 : nth i l (k0, None) = (k, o) -> (i < List.length l)%nat -> forall o', map fst (upd l i (k, o')) = map fst l.
Proof.
  revert i. induction l as [|[a b] l IH]; intros [|i] H L o'; cbn in L; try lia.
  - cbn in H. injection H as -> ->. reflexivity.
  - cbn in H. change (upd ((a, b) :: l) (S i) (k, o')) with ((a, b) :: upd l i (k, o')). cbn [map]. f_equal. apply IH; auto. lia.
Qed.
Lemma st_write_metadata key data err : In key names -> tri s3 (Ti true) (write_metadata E key data err) (fun _ => Ti true) (fun tw => s3 /\ Ti true tw).
Proof.
  intros Hk [s w] Hs. unfold Ti in Hs. cbn [fst] in Hs. unfold write_metadata. destruct (find_key_in key (s_msinks s)) as (i & Hi & Hl). { pose proof (so_m _ _ Hs) as M. cbn in M. rewrite M. exact Hk. }
  rewrite Hi. destruct (nth i (s_msinks s) (key, None)) as [k [sk'|]] eqn:N; [|exact Hs].
  assert (K : kind fs sk'). { pose proof (nth_In (s_msinks s) (key, None) Hl) as X. rewrite N in X. apply (proj1 (Forall_forall _ _) (so_k _ _ Hs) _ X). }
  pose proof (k_write E fs 0 data (or_intror eq_refl) (sk', w) K) as H.
  assert (U : forall k', kind fs k' -> sok true (set_msinks s (upd (s_msinks s) i (k, Some k')))).
  { intros k' Hk'. sk. { rewrite (upd_fst _ i k (Some sk') key); auto. } apply SafeWriter.forall_upd; auto. }
  destruct (sink_write E 0 data (sk', w)) as [[k' w'] [[]|e| |]]; cbn in *; auto; try (unfold Ti; cbn [fst]; apply U; tauto). split; [tauto|]. unfold Ti. cbn [fst]. apply U. tauto.
Qed.
Lemma in_base s : s_v3 s = v3 -> In (fst (base_metadata s)) names.
Proof. intros H. unfold base_metadata, names. rewrite H. destruct v3; cbn; auto. Qed.
Lemma in_group s : s_v3 s = v3 -> In (fst (group_metadata s)) names.
Proof. intros H. unfold group_metadata, names. rewrite H. destruct v3; cbn; auto. Qed.
Lemma in_ext : In (external_key v3) names.
Proof. unfold external_key, names. destruct v3; cbn; auto. Qed.
Lemma st_base : tri s3 (Ti true) (write_base_metadata E) (fun _ => Ti true) (fun tw => s3 /\ Ti true tw).
Proof. unfold write_base_metadata. apply st_get. intros s Hs. pose proof (in_base s (so_v _ _ Hs)). destruct (base_metadata s) as [k j]. apply st_write_metadata. auto. Qed.
Lemma st_group : tri s3 (Ti true) (write_group_metadata E) (fun _ => Ti true) (fun tw => s3 /\ Ti true tw).
Proof. unfold write_group_metadata. apply st_get. intros s Hs. pose proof (in_group s (so_v _ _ Hs)). destruct (group_metadata s) as [k j]. apply st_write_metadata. auto. Qed.
Lemma st_ext : tri s3 (Ti true) (write_external_metadata E) (fun _ => Ti true) (fun tw => s3 /\ Ti true tw).
Proof. unfold write_external_metadata. apply st_get. intros s Hs. destruct (_ =? "")%string; [apply t_ret; auto|]. rewrite (so_v _ _ Hs). apply st_write_metadata. apply in_ext. Qed.

(** *** Destroy *)
Lemma t_all_ok {A} (P R : TW -> Prop) (f : A -> M TW bool) l : (forall a, In a l -> tri s3 P (f a) (fun _ => P) R) -> tri s3 P (all_ok f l) (fun _ => P) R.
Proof. induction l as [|a l IH]; intros H; cbn [all_ok]; [apply t_ret; auto|]. eapply t_bind; [apply H; left; auto|]. intros []; [apply IH; intros; apply H; right; auto|apply t_ret; auto]. Qed.
Lemma st_finalize_msink i : (i < List.length names)%nat -> tri s3 (Ti true) (finalize_msink E i) (fun _ => Ti true) (fun tw => s3 /\ Ti true tw).
Proof.
  intros Hi [s w] Hs. unfold Ti in Hs. cbn [fst] in Hs. unfold finalize_msink. pose proof (so_m _ _ Hs) as M. cbn in M.
  assert (L : List.length (s_msinks s) = List.length names) by (rewrite <- M, map_length; reflexivity).
  destruct (nth_error (s_msinks s) i) as [[k o]|] eqn:N; [|apply nth_error_None in N; lia].
  assert (K : slot fs o). { apply (proj1 (Forall_forall _ _) (so_k _ _ Hs) (k, o)). eapply nth_error_In; eauto. }
  pose proof (k_final E fs (o, w) K) as H.
  assert (U : forall o', slot fs o' -> sok true (set_msinks s (upd (s_msinks s) i (k, o')))).
  { intros o' Ho'. sk. { rewrite (upd_fst _ i k o ""); auto; [apply nth_error_nth; auto|lia]. } apply SafeWriter.forall_upd; auto. }
  destruct (finalize_sink E (o, w)) as [[o' w'] [b|e| |]]; cbn in *; auto; try (unfold Ti; cbn [fst]; apply U; tauto). split; [tauto|]. unfold Ti. cbn [fst]. apply U. tauto.
Qed.
Lemma st_destroy : tri s3 (Ti true) (api_destroy E) (fun _ _ => True) (fun _ => s3).
Proof.
  unfold api_destroy, finalize_stream. apply t_bind with (Q := fun _ => Ti true); [eapply t_weak; [apply st_group|auto|auto|intros s X; apply X]|].
  intros []; [|apply t_ret; auto]. apply st_get. intros s Hs. apply t_bind with (Q := fun _ => Ti true).
  { eapply t_weak; [apply (t_all_ok (Ti true) (fun tw => s3 /\ Ti true tw))|auto|auto|intros x X; apply X]. intros i Hi. apply in_seq in Hi. apply st_finalize_msink. pose proof (so_m _ _ Hs) as M. cbn in M. rewrite <- M, map_length. lia. }
  intros []; [|apply t_ret; auto]. apply t_bind with (Q := fun _ => Ti false). { intros [x w] Hx. unfold Ti in *. cbn in *. sk. }
  intros _. apply st_get. intros s' Hs'. apply t_bind with (Q := fun _ => Ti false).
  { eapply t_weak; [apply (t_all_ok (Ti false) (fun tw => s3 /\ Ti false tw))|auto|auto|intros x X; apply X]. intros i Hi. apply in_seq in Hi. pose proof (Forall2_length _ _ _ (so_w _ _ Hs')) as L.
    destruct (nth_error (g0 :: gs) i) as [g|] eqn:N; [|apply nth_error_None in N; lia]. destruct (all_gok i g N) as [a1 a2 a3 a4 a5].
    eapply t_weak; [apply (st_on_writer false i g _ anyv s3 N)|auto|intros v x X; apply X|auto]. eapply t_weak; [eapply ws_finalize with (bpp := bpp) (dt := dt) (d0 := g_0 g); eauto|auto|intros v x X; split; [exact Logic.I|exact X]|auto]. }
  intros []; [|apply t_ret; auto]. apply t_bind with (Q := fun _ _ => True); [intros [x w] _; exact Logic.I|]. intros _. apply t_ret. auto.
Qed.

(** *** Create *)
Lemma mp_names : metadata_paths (if v3 then 3 else 2) = Ok names.
Proof using. unfold names. case v3; reflexivity. Qed.
Lemma w_metas_fs root : wt s3 True (fun l => map fst l = names /\ Forall (fun ks => slot fs (snd ks)) l) (make_metadata_sinks_fs E (if v3 then 3 else 2) root) \/ fs = false.
Proof.
  destruct fs eqn:F; [left|auto]. unfold make_metadata_sinks_fs. cbn zeta. eapply w_bind; [apply w_exp|]. intros _ _.
  eapply w_bind with (V := fun l => l = names); [rewrite mp_names; apply w_lift with (v := names); reflexivity|]. intros l ->.
  eapply w_bind; [apply w_dirs; auto|]. intros ok _. eapply w_bind; [apply w_exp|]. intros _ _. eapply w_bind; [apply w_dirs; auto|]. intros ok2 _. eapply w_bind; [apply w_exp|]. intros _ _.
  assert (X : forall base l acc, Forall (fun ks : string * option sink => slot true (snd ks)) acc ->
     wt (true = false) True (fun v => map fst v = map fst acc ++ l /\ Forall (fun ks => slot true (snd ks)) v) (mfold (fun acc n => s <- file_sink E (base ++ "/" ++ n)%string ;; job_done (true, "") ;;; ret (acc ++ [(n, Some (SFile s))])%list) l acc)).
  { intros base. induction l as [|x l IH]; intros acc Ha; cbn [mfold]; [apply w_ret; rewrite app_nil_r; auto|].
    eapply w_bind with (V := fun v : list (string * option sink) => map fst v = map fst acc ++ [x] /\ Forall (fun ks => slot true (snd ks)) v).
    - eapply w_bind; [apply w_file|]. intros f _. eapply w_bind; [apply w_done|]. intros _ _. apply w_ret. rewrite map_app. split; [reflexivity|]. apply Forall_app. split; auto. repeat constructor.
    - intros v [V1 V2]. eapply w_weak; [apply IH; auto|]. intros u [U1 U2]. split; auto. rewrite U1, V1, <- app_assoc. reflexivity. }
  eapply w_weak; [apply X; constructor|]. intros v [V1 V2]. auto.
Qed.
Lemma w_metas_s3 b root : fs = false -> wt True True (fun o => forall l, o = Some l -> map fst l = names /\ Forall (fun ks => slot fs (snd ks)) l) (make_metadata_sinks_s3 E (if v3 then 3 else 2) b root).
Proof.
  intros F. unfold make_metadata_sinks_s3. eapply w_bind; [apply w_exp|]. intros _ _. eapply w_bind; [apply w_exp|]. intros _ _. eapply w_bind; [apply w_bucket|]. intros ok _. destruct ok; [|apply w_ret; discriminate].
  eapply w_bind with (V := fun l => l = names); [rewrite mp_names; apply w_lift with (v := names); reflexivity|]. intros l ->.
  assert (X : forall l acc, Forall (fun ks : string * option sink => slot fs (snd ks)) acc ->
     wt True True (fun v => map fst v = map fst acc ++ l /\ Forall (fun ks => slot fs (snd ks)) v) (mfold (fun acc n => s <- s3_sink b (root ++ "/" ++ n)%string ;; ret (acc ++ [(n, Some (SS3 s))])%list) l acc)).
  { induction l as [|x l IH]; intros acc Ha; cbn [mfold]; [apply w_ret; rewrite app_nil_r; auto|].
    eapply w_bind with (V := fun v : list (string * option sink) => map fst v = map fst acc ++ [x] /\ Forall (fun ks => slot fs (snd ks)) v).
    - eapply w_bind; [apply w_s3sink|]. intros f (S1 & S2 & S3). apply w_ret. rewrite map_app. split; [reflexivity|]. apply Forall_app. split; auto. repeat constructor; auto; unfold part_size; lia.
    - intros v [V1 V2]. eapply w_weak; [apply IH; auto|]. intros u [U1 U2]. split; auto. rewrite U1, V1, <- app_assoc. reflexivity. }
  eapply w_bind; [apply X; constructor|]. intros v [V1 V2]. apply w_ret. intros l Hl. injection Hl as <-. auto.
Qed.
Lemma wt_hg {A} (hg hg' th : Prop) (V : A -> Prop) m : wt hg th V m -> (hg -> hg') -> wt hg' th V m.
Proof. intros H K w X. specialize (H w X). destruct (m w) as [w' [v|e| |]]; auto. Qed.
Lemma st_create_meta : tri s3 (Ti false) (create_metadata_sinks E) (fun ok tw => ok = true -> Ti true tw) (fun _ => True).
Proof.
  unfold create_metadata_sinks. apply st_get. intros s Hs. cbn zeta. rewrite (so_v _ _ Hs).
  apply t_bind with (Q := fun r tw => (forall l, r = Some l -> map fst l = names /\ Forall (fun ks => slot fs (snd ks)) l) /\ Ti false tw).
  - eapply t_weak; [apply (st_onT false True (fun r : option (list (string * option sink)) => forall l, r = Some l -> map fst l = names /\ Forall (fun ks => slot fs (snd ks)) l))|auto|auto|auto].
    apply w_catch; [|intros e; eapply w_bind; [apply w_seterr|]; intros; apply w_ret; discriminate].
    apply w_bind with (V := fun r : option (list (string * option sink)) => forall l, r = Some l -> map fst l = names /\ Forall (fun ks => slot fs (snd ks)) l).
    + pose proof (so_b _ _ Hs) as B. destruct (s_bucket s) as [b|].
      * eapply wt_hg; [apply w_metas_s3; auto|auto].
      * destruct (w_metas_fs (s_root s)) as [X|X]; [|congruence]. eapply w_bind; [apply X|]. intros l Hl. apply w_ret. intros l' Z. injection Z as <-. exact Hl.
    + intros [l|] Hl; [apply w_ret; exact Hl|]. eapply w_bind; [apply w_seterr|]. intros; apply w_ret; discriminate.
  - intros [l|]; [|apply t_ret; discriminate]. apply t_fact. intros Hl. destruct (Hl l eq_refl) as [L1 L2].
    apply t_bind with (Q := fun _ => Ti true); [|intros; apply t_ret; auto]. intros [x w] Hx. unfold Ti in *. cbn in *. sk.
Qed.
Lemma w_create_store s : match s_bucket s with None => fs = true | Some _ => fs = false end -> wt s3 True anyv (create_store E s).
Proof.
  intros B. unfold create_store. destruct (s_bucket s) as [b|].
  - apply wt_hg with (hg := True); [|auto]. apply w_seq; [intros w _; exact Logic.I|]. intros _. apply w_seq.
    { induction (e_conns E) as [|k IH]; cbn [open_connections]; [apply w_ret; exact Logic.I|]. apply w_seq; [apply w_req|]. intros [ok i]. apply w_seq; [destruct ok; [apply w_return|apply w_ret; exact Logic.I]|]. auto. }
    intros _. apply w_seq; [apply w_get|]. intros w. destruct (Nat.eqb _ 0); [apply w_seq; [apply w_seterr|]; intros; apply w_ret; exact Logic.I|].
    apply w_seq; [apply w_conn|]. intros _. apply w_seq; [apply w_req|]. intros [ok i]. destruct ok; apply w_seq; try apply w_return; try apply w_seterr; intros; apply w_ret; exact Logic.I.
  - apply w_seq; [apply w_exists; auto|]. intros ex. apply w_seq; [destruct ex; [apply w_rm|apply w_ret; exact Logic.I]|]. intros ok. destruct ok; [|apply w_seq; [apply w_seterr|]; intros; apply w_ret; exact Logic.I].
    apply w_seq; [apply w_mkdirs|]. intros c. destruct c; [apply w_ret; exact Logic.I|apply w_seq; [apply w_seterr|]; intros; apply w_ret; exact Logic.I].
Qed.
Definition opening : M TW unit :=
  ok <- create_metadata_sinks E ;; expectM ok "create_metadata_sinks_" ;;;
  ok <- write_base_metadata E ;; expectM ok "write_base_metadata_" ;;;
  ok <- write_group_metadata E ;; expectM ok "write_group_metadata_" ;;;
  ok <- write_external_metadata E ;; expectM ok "write_external_metadata_".
Lemma st_opening : tri s3 (Ti false) opening (fun _ => Ti true) (fun _ => True).
Proof.
  unfold opening. eapply t_bind; [apply st_create_meta|]. intros ok. apply t_bind with (Q := fun _ => Ti true); [apply t_expect; auto|]. intros _.
  apply t_bind with (Q := fun _ => Ti true); [eapply t_weak; [apply st_base|auto|auto|auto]|]. intros ok1. apply t_bind with (Q := fun _ => Ti true); [apply t_expect; auto|]. intros _.
  apply t_bind with (Q := fun _ => Ti true); [eapply t_weak; [apply st_group|auto|auto|auto]|]. intros ok2. apply t_bind with (Q := fun _ => Ti true); [apply t_expect; auto|]. intros _.
  apply t_bind with (Q := fun _ => Ti true); [eapply t_weak; [apply st_ext|auto|auto|auto]|]. intros ok3. apply t_expect; auto.
Qed.
End St.

(** ** The levels *)
Definition down_geo (g : geo) : geo := mkgeo (down_cfg (g_c g)) (down_dim (g_0 g)) (map down_dim (g_m g)) (down_dim (g_y g)) (down_dim (g_x g)).
Fixpoint geos (fuel : nat) (g : geo) : list geo := match fuel with O => [] | S f => down_geo g :: if goes_on (g_c g) then geos f (down_geo g) else [] end.

Section Pyr.
Variables (v3 fs : bool) (bpp dt : Z).
Hypothesis Hkind : v3 = true -> fs = true.
Hypothesis Hi8 : dt <> dt_int8.
Notation gok := (gok v3 fs bpp dt).

Lemma geo_down g : gok g -> small0 (g_0 g) -> gok (down_geo g).
Proof.
  intros [a1 a2 a3 a4 a5] Sm. constructor; unfold down_geo; cbn [g_c g_0 g_m g_y g_x]; cbn [down_cfg with_dims c_dims c_dtype c_bucket]; auto.
  - apply fits_down; auto.
  - intros V. eapply shards_down; eauto.
  - rewrite a3. apply map_ds.
Qed.
Lemma geo_step g : gok g -> small0 (g_0 g) -> downsample (g_c g) = Ok (down_cfg (g_c g), goes_on (g_c g)).
Proof.
  intros G Sm. unfold downsample. rewrite (omap_ok _ down_dim).
  - cbn [obind]. unfold make_dimensions. rewrite map_length, (go_d _ _ _ _ _ G). cbn [List.length]. rewrite app_length. cbn [List.length].
    replace (Nat.ltb 2 (S (List.length (g_m g) + 2))) with true by (symmetry; apply Nat.ltb_lt; lia). cbn [obind].
    unfold down_cfg, with_dims, goes_on. rewrite (go_d _ _ _ _ _ G). reflexivity.
  - rewrite (go_d _ _ _ _ _ G). intros d [<-|H]; apply downsample_dim_ok.
    + eapply d0_small; eauto. exact (go_f _ _ _ _ _ G).
    + eapply inner_in; [exact (go_f _ _ _ _ _ G)|exact H].
Qed.
Lemma arr_half d : small d -> 0 < d_array d -> d_type d <> ty_channel -> d_array (down_dim d) = half (d_array d).
Proof. intros H1 H2 H3. unfold down_dim. rewrite (proj2 (Z.eqb_neq _ _) H3). rewrite (proj2 (Z.eqb_neq (d_array d) 0)) by lia. reflexivity. Qed.
Lemma pyramid_safe : forall fuel g, gok g -> small0 (g_0 g) -> d_type (g_y g) = ty_space -> d_type (g_x g) = ty_space -> scale_fits bpp (d_array (g_x g)) (d_array (g_y g)) ->
  enough fuel (g_c g) = true -> exists ws, pyramid fuel v3 (g_c g) = Ok ws /\ Forall2 (gwok v3 fs) (geos fuel g) ws /\ chain v3 fs bpp dt g (geos fuel g).
Proof.
  induction fuel as [|f IH]; intros g G Sm Ty Tx Sc En; [discriminate|]. cbn [pyramid geos enough] in *. rewrite (geo_step g G Sm). cbn [obind].
  pose proof (geo_down g G Sm) as G'. destruct (ws_make v3 fs bpp (down_dim (g_0 g)) (map down_dim (g_m g)) (down_dim (g_y g)) (down_dim (g_x g)) (down_cfg (g_c g))) as (a & A1 & A2).
  { exact (go_f _ _ _ _ _ G'). } { exact (go_s _ _ _ _ _ G'). } { exact Hkind. } { exact (go_d _ _ _ _ _ G'). }
  rewrite A1. cbn [obind].
  assert (Iy : forall d, In d (g_m g ++ [g_y g; g_x g]) -> inner_ok d /\ small d) by (intros d; apply (inner_in bpp (g_0 g)); exact (go_f _ _ _ _ _ G)).
  destruct (Iy (g_y g)) as [Y1 Y2]; [apply in_or_app; right; left; reflexivity|]. destruct (Iy (g_x g)) as [X1 X2]; [apply in_or_app; right; right; left; reflexivity|].
  assert (Hy : d_array (down_dim (g_y g)) = half (d_array (g_y g))) by (apply arr_half; auto; [apply Y1|rewrite Ty; discriminate]).
  assert (Hx : d_array (down_dim (g_x g)) = half (d_array (g_x g))) by (apply arr_half; auto; [apply X1|rewrite Tx; discriminate]).
  assert (Td : forall d, d_type (down_dim d) = d_type d). { intros d. unfold down_dim. destruct (_ =? ty_channel); auto. destruct (_ =? 0); auto. }
  destruct (goes_on (g_c g)).
  - destruct (IH (down_geo g)) as (ws & W1 & W2 & W3); auto.
    + apply (small0_down bpp _ (g_m g) (g_y g) (g_x g)); auto. exact (go_f _ _ _ _ _ G).
    + unfold down_geo; cbn. rewrite Td. auto.
    + unfold down_geo; cbn. rewrite Td. auto.
    + apply (scale_down bpp (g_0 g) (g_m g)); auto. exact (go_f _ _ _ _ _ G).
    + change (down_cfg (g_c g)) with (g_c (down_geo g)). rewrite W1. cbn [obind]. exists (a :: ws). split; [reflexivity|]. split; [constructor; auto|]. cbn [chain]. split; auto.
  - exists [a]. split; [reflexivity|]. split; [constructor; auto; constructor|]. cbn [chain]. repeat match goal with |- _ /\ _ => split end; auto.
Qed.
End Pyr.

(** ** The session *)
Section Sess.
Variables (E : env) (st : settings) (d0 : dim) (mids : list dim) (dy dx : dim) (bpp : Z) (l : list udim).
Let v3 := st_version st =? 3.
Let fs := match st_s3 st with None => true | Some _ => false end.
Hypothesis Hty : typed st.
Hypothesis Hstr : strings_present st.
Hypothesis Hl : st_dims st = Some l.
Hypothesis Hdim : map dim_of l = d0 :: mids ++ [dy; dx].
Hypothesis Hbpp : bytes_of_type (st_dtype st) = Ok bpp.
Hypothesis Hf : fits bpp d0 mids dy dx.
Hypothesis Hs : st_version st = 3 -> fits_shards d0 mids dy dx.
Hypothesis Hkind : st_version st = 3 -> st_s3 st = None.
Hypothesis HQ : st_s3 st = None -> forall k q, e_stat E k q = true.
Hypothesis Hmulti : st_multi st = true -> small0 d0 /\ scale_fits bpp (d_array dx) (d_array dy) /\ st_dtype st <> dt_int8 /\ exists d, In d (d0 :: mids ++ [dy; dx]) /\ shrinks d.
Notation s3 := (fs = false).

Lemma kind' : v3 = true -> fs = true.
Proof. unfold v3, fs. intros V. apply Z.eqb_eq in V. rewrite (Hkind V). reflexivity. Qed.
Lemma stat' : fs = true -> forall k q, e_stat E k q = true.
Proof. unfold fs. intros V. apply HQ. destruct (st_s3 st); [discriminate|reflexivity]. Qed.
Definition gbase : geo := mkgeo (mkconfig (d0 :: mids ++ [dy; dx]) (st_dtype st) 0 (option_map (fun x => opt_trim (x_bucket x)) (st_s3 st)) (opt_trim (st_path st)) (option_map blosc_of (st_comp st))) d0 mids dy dx.
Definition glevels : list geo := if st_multi st then geos pyramid_fuel gbase else [].
Lemma gbase_ok : gok v3 fs bpp (st_dtype st) gbase.
Proof.
  constructor; cbn; auto.
  - intros V. apply Hs. apply Z.eqb_eq. exact V.
  - unfold fs. destruct (st_s3 st); reflexivity.
Qed.
Lemma two_space w b : validate_settings E w (Some st) = Ok b -> b = true -> d_type dy = ty_space /\ d_type dx = ty_space /\ st_dtype st < dt_count.
Proof.
  intros V ->. destruct (validate_settings_spec E w st Hty Hstr) as (b' & B1 & B2). rewrite V in B1. injection B1 as <-. destruct (proj1 B2 eq_refl) as (_ & _ & T & _ & _ & l' & init & y & x & L1 & L2 & _ & Ty & Tx & _).
  rewrite Hl in L1. injection L1 as <-. rewrite L2, map_app in Hdim. cbn [map] in Hdim. rewrite app_comm_cons in Hdim.
  assert (X : dim_of y = dy /\ dim_of x = dx).
  { apply (f_equal (@rev dim)) in Hdim. rewrite !rev_app_distr in Hdim. cbn in Hdim. injection Hdim as -> -> _. auto. }
  destruct X as [<- <-]. cbn. unfold dt_count. repeat split; auto. lia.
Qed.
Lemma writers_safe s : s_v3 s = v3 -> base_config s = g_c gbase -> s_multi s = st_multi st -> d_type dy = ty_space -> d_type dx = ty_space ->
  exists ws, create_writers s = Ok ws /\ Forall2 (gwok v3 fs) (gbase :: glevels) ws /\ chain v3 fs bpp (st_dtype st) gbase glevels.
Proof.
  intros Sv Sb Sm Ty Tx. unfold create_writers. rewrite Sv, Sb, Sm.
  destruct (ws_make v3 fs bpp d0 mids dy dx (g_c gbase)) as (a & A1 & A2); [exact Hf|exact (go_s _ _ _ _ _ gbase_ok)|exact kind'|reflexivity|]. rewrite A1. cbn [obind]. unfold glevels. destruct (st_multi st) eqn:M.
  - destruct (Hmulti eq_refl) as (M1 & M2 & M3 & d & M4 & M5). destruct (pyramid_safe v3 fs bpp (st_dtype st) kind' M3 pyramid_fuel gbase gbase_ok M1 Ty Tx M2) as (ws & W1 & W2 & W3).
    { apply (enough_40 (g_c gbase) d); auto. destruct M4 as [<-|M4]; [destruct M1; lia|]. destruct (inner_in bpp d0 mids dy dx Hf d M4) as [(I1 & I2 & I3) _]. lia. }
    rewrite W1. cbn [obind]. exists (a :: ws). split; [reflexivity|]. split; [constructor; [exact A2|exact W2]|exact W3].
  - exists [a]. split; [reflexivity|]. split; [constructor; [exact A2|constructor]|]. split; [exact gbase_ok|exact Logic.I].
Qed.
Lemma new_safe w : match new_stream E (Some st) w with (w', Ok s) => sok v3 fs bpp (st_dtype st) gbase glevels true s /\ chain v3 fs bpp (st_dtype st) gbase glevels /\ st_dtype st < dt_count | (_, Throw _) => True | (_, UB) => False | (_, Hang) => s3 end.
Proof.
  unfold new_stream. destruct (validate_settings_spec E w st Hty Hstr) as (b & B1 & _). rewrite B1. destruct b; [|exact Logic.I].
  destruct (two_space w true B1 eq_refl) as (Ty & Tx & Td).
  set (s0 := mkstream v3 (opt_trim (st_path st)) (option_map (fun x => opt_trim (x_bucket x)) (st_s3 st)) (option_map blosc_of (st_comp st)) (match st_meta st with Some m => trim m | None => "{}" end) (st_dtype st) (d0 :: mids ++ [dy; dx]) (st_multi st) [] 0 [] [] [] 0).
  assert (C : commit st = Ok s0). { unfold commit. rewrite Hl, Hdim. unfold make_dimensions. cbn [List.length]. rewrite app_length. cbn [List.length]. replace (Nat.ltb 2 (S (List.length mids + 2))) with true by (symmetry; apply Nat.ltb_lt; lia). reflexivity. }
  rewrite C. cbn zeta.
  match goal with |- match ?m w with _ => _ end => assert (T : tri s3 (fun _ => True) m (fun s _ => sok v3 fs bpp (st_dtype st) gbase glevels true s /\ chain v3 fs bpp (st_dtype st) gbase glevels /\ st_dtype st < dt_count) (fun _ => True)) end; [|apply (T w Logic.I)].
  apply t_bind with (Q := fun s _ => s = s0); [apply t_lift; auto|]. intros s. apply t_pre with (P := fun _ => s = s0 /\ True); [|auto]. apply t_fact. intros ->.
  change (s_dims s0) with (d0 :: mids ++ [dy; dx]). change (s_dtype s0) with (st_dtype st). rewrite (bytes_of_frame_exact bpp (st_dtype st) d0 mids dy dx Hf Hbpp).
  apply t_bind with (Q := fun n _ => n = frameb bpp gbase); [apply t_lift; intros; reflexivity|]. intros n. apply t_pre with (P := fun _ => n = frameb bpp gbase /\ True); [|auto]. apply t_fact. intros ->.
  apply t_bind with (Q := fun _ _ => True). { eapply t_weak; [apply (w_create_store E fs); [exact stat'|]|..]; auto. cbn. unfold fs. destruct (st_s3 st); reflexivity. }
  intros ok. apply t_bind with (Q := fun _ _ => True); [apply t_expect; auto|]. intros _.
  destruct (writers_safe (set_fbuf s0 (zrep 0 (frameb bpp gbase)) 0)) as (ws & W1 & W2 & W3); auto. rewrite W1.
  apply t_bind with (Q := fun v _ => v = ws); [apply t_lift; auto|]. intros v. apply t_pre with (P := fun _ => v = ws /\ True); [|auto]. apply t_fact. intros ->.
  intros w1 _. pose proof (frame_pos v3 fs bpp (st_dtype st) gbase gbase_ok) as Fp.
  match goal with |- context [let (_, _) := ?body (?s1, w1) in _] => set (s2 := s1); change body with (opening E) end.
  assert (X : sok v3 fs bpp (st_dtype st) gbase glevels false s2).
  { unfold s2. destruct (s_multi _); constructor; cbn; auto; try (unfold zlen, zrep; rewrite repeat_length; lia); unfold fs; destruct (st_s3 st); reflexivity. }
  pose proof (st_opening E v3 fs bpp (st_dtype st) kind' stat' gbase glevels (s2, w1) X) as O. destruct (opening E (s2, w1)) as [[s' w'] [u|e| |]]; cbn [obind]; auto. 
Qed.

(** what the calls return *)
Definition ends_well (calls : list (list Z)) (r : option (list (Z * option Z) * bool)) : Prop :=
  r = None \/ exists rs b, r = Some (rs, b) /\ Forall2 told calls rs.
Lemma session_safe calls w : Forall (fun d => exists k, zlen d = Z.of_nat k * (d_array dy * d_array dx * bpp)) calls ->
  match session E st calls w with (_, Ok r) => ends_well calls r | (_, Throw _) => s3 | (_, UB) => False | (_, Hang) => s3 end.
Proof.
  intros Hc. unfold session, bind at 1, api_create, catchM, bind at 1, ret. pose proof (new_safe w) as N. destruct (new_stream E (Some st) w) as [w1 [s|e| |]]; auto; [|left; reflexivity].
  destruct N as (N1 & N2 & N3).
  assert (T : tri s3 (Ti v3 fs bpp (st_dtype st) gbase glevels true) (rs <- api_appends E calls ;; d <- api_destroy E ;; (fun s0 => (s0, Ok (Some (rs, d))))) (fun r _ => ends_well calls r) (fun _ => s3)).
  { eapply t_bind with (Q := fun rs tw => Forall2 told calls rs /\ Ti v3 fs bpp (st_dtype st) gbase glevels true tw).
    - eapply t_weak; [apply (st_appends E v3 fs bpp (st_dtype st) Hbpp kind' stat' gbase glevels N2 N3)|auto|auto|intros x X; destruct X]. exact Hc.
    - intros rs. apply t_fact. intros Hrs. eapply t_bind; [apply (st_destroy E v3 fs bpp (st_dtype st) Hbpp kind' stat' gbase glevels N2)|]. intros d x _. right. eauto. }
  specialize (T (s, w1) N1). match goal with |- context [?m (s, w1)] => destruct (m (s, w1)) as [[s' w'] [r|e| |]] end; auto.
Qed.
End Sess.
