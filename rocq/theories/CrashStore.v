(** What is on disk when a session is interrupted. *)
Require Import ZArith List Bool String Ascii Lia Zify.
Require Import Verif.Base Verif.Spec Verif.Dim Verif.Limits Verif.Radix Verif.Json Verif.PathProofs Verif.World Verif.Writer
  Verif.SinkProofs Verif.CreateProofs Verif.FlushProofs Verif.CrashProofs Verif.LayoutProofs Verif.BufProofs Verif.WriterProofs Verif.ChunkProofs
  Verif.LevelProofs Verif.Stream Verif.MetaProofs Verif.StreamProofs Verif.PyramidProofs Verif.Api Verif.SettingsSpec Verif.ValidProofs
  Verif.SessionSpec Verif.SessionProofs Verif.JsonSpec Verif.JsonProofs Verif.StoreProofs Verif.IndexProofs Verif.PyramidSpec Verif.LevelsProofs
  Verif.StoreSpec Verif.ChunkStore Verif.CrashSpec.
Import ListNotations.
Open Scope string_scope.
Open Scope list_scope.
Open Scope Z_scope.

Lemma settles_affects p e : settles p e -> affects (LF p) e.
Proof. destruct e; simpl; try tauto; intros ->; reflexivity. Qed.

(** *** what is found of a file depends on the events that concern it *)
Lemma file_step_other p c e : concerns p e = false -> file_step p c e = c.
Proof. destruct e; cbn; try reflexivity; intros ->; reflexivity. Qed.
Lemma fold_concerns p : forall l c, fold_left (file_step p) (filter (concerns p) l) c = fold_left (file_step p) l c.
Proof.
  induction l as [|e l IH]; intros c; cbn [filter fold_left]; auto. destruct (concerns p e) eqn:C; cbn [fold_left]; rewrite IH; auto. rewrite file_step_other; auto.
Qed.
Lemma file_concerns E p l : file_of E (filter (concerns p) l) p = file_of E l p.
Proof. apply fold_concerns. Qed.
Lemma filter_split {A} (f : A -> bool) : forall l a b, filter f l = a ++ b -> exists l1 l2, l = l1 ++ l2 /\ filter f l1 = a /\ filter f l2 = b.
Proof.
  induction l as [|x l IH]; intros a b H; cbn in H.
  - destruct a; [|discriminate]. cbn in H. subst b. exists [], []. auto.
  - destruct a as [|y a].
    + exists [], (x :: l). auto.
    + destruct (f x) eqn:F.
      * cbn in H. injection H as -> H. destruct (IH a b H) as (l1 & l2 & -> & A1 & A2). exists (y :: l1), l2. cbn. rewrite F, A1. auto.
      * destruct (IH (y :: a) b H) as (l1 & l2 & -> & A1 & A2). exists (x :: l1), l2. cbn. rewrite F. auto.
Qed.
Lemma settles_concerns p e : settles p e -> concerns p e = true.
Proof. destruct e; cbn; try tauto; try (intros ->; apply String.eqb_refl); auto. Qed.
Lemma found_same E p tr tr' x : filter (concerns p) tr = filter (concerns p) tr' -> may_be_found E tr p x -> may_be_found E tr' p x.
Proof.
  intros H (t1 & t2 & -> & F & <-). rewrite filter_app in H. symmetry in H. destruct (filter_split _ _ _ _ H) as (l1 & l2 & -> & A1 & A2). exists l1, l2. split; auto. split.
  - apply Forall_forall. intros e He Hs. assert (In e (filter (concerns p) l2)) by (apply filter_In; split; auto using settles_concerns). rewrite A2 in H0. apply filter_In in H0 as [H0 _]. exact (proj1 (Forall_forall _ _) F e H0 Hs).
  - rewrite <- file_concerns, A1, file_concerns. reflexivity.
Qed.

Lemma concerns_affects p e : concerns p e = true -> affects (LF p) e.
Proof. destruct e; cbn; try discriminate; try (intros X; apply String.eqb_eq in X; subst; reflexivity); auto. Qed.
Lemma at_in_batch all doc tr : dies_at all tr -> dies_in_batch all doc tr.
Proof. intros (rest & -> & R). exists tr, rest. split; auto. split; auto. split; auto. intros p. exists [], rest. rewrite app_nil_r. auto. Qed.

(** a file that was closed for good is found as it is at the end *)
Lemma found_closed E tr rest p c :
  closed tr (LF p) -> Forall (fun e => ~ affects (LF p) e) rest -> may_be_found E tr p c -> c = file_of E (tr ++ rest) p.
Proof.
  intros (x & y & -> & Hy) Hr (t1 & t2 & H & Hs & <-).
  destruct (app_split _ _ _ _ H) as [(z & -> & Hz)|(z & -> & Hz)].
  - destruct z as [|e z].
    + simpl in Hz. subst t2. inversion Hs as [|? ? He _]. exfalso. apply He. reflexivity.
    + simpl in Hz. injection Hz as <- ->. apply Forall_app in Hy as [_ Hy].
      assert (X : content E (((x ++ EClose p :: z) ++ t2) ++ rest) (LF p) = content E (x ++ EClose p :: z) (LF p)).
      { rewrite <- app_assoc. apply content_frame. apply Forall_app. auto. }
      change (file_of E (x ++ EClose p :: z) p = file_of E ((x ++ EClose p :: z ++ t2) ++ rest) p). symmetry. refine (eq_trans _ X).
      cbn [content]. rewrite <- !app_assoc. cbn [app]. rewrite <- !app_assoc. reflexivity.
  - exfalso. subst t2. apply Forall_app in Hs as [_ Hs]. inversion Hs as [|? ? He _]. apply He. reflexivity.
Qed.

(** what a document found on disk promises *)
Lemma found_safe E ml p decl need N all tr c :
  ml = LF p -> safe E ml decl need N all -> dies_in_batch all p tr -> may_be_found E tr p (Some c) ->
  c = [] \/ exists k, 0 <= k <= N /\ c = decl k /\
    forall q x, need k (LF q) -> may_be_found E tr q x -> x = file_of E all q.
Proof.
  intros -> Hs (bf & rest & -> & Hrm & Hd & HM) Hf. apply (found_same E p tr bf _ Hd) in Hf as (t1 & t2 & -> & Hst & Hf).
  rewrite <- app_assoc in Hs.
  destruct (Hs t1 (t2 ++ rest) c eq_refl) as [->|(k & K1 & K2 & K3)]; auto.
  - apply Forall_app. split.
    + eapply Forall_impl; [|exact Hst]. intros e He. destruct e; simpl in *; auto.
    + apply Forall_forall. intros e He. destruct e; simpl; auto. exfalso. eapply Hrm; eauto.
  - right. exists k. split; [auto|]. split; [auto|]. intros q x Hq Hx. destruct (K3 _ Hq) as [C1 C2]. apply Forall_app in C2 as [C2 C3].
    apply (found_closed E (t1 ++ t2) rest q x); auto; [apply closed_app; auto|].
    destruct (HM q) as (m & r & -> & EM). apply (found_same E q tr (t1 ++ t2)); auto. rewrite EM, !filter_app.
    replace (filter (concerns q) m) with (@nil event); [rewrite app_nil_r; reflexivity|].
    apply Forall_app in C3 as [C3 _]. clear -C3. induction C3 as [|e m He _ IH]; cbn; auto. destruct (concerns q e) eqn:X; auto. exfalso. apply He, concerns_affects, X.
Qed.

Lemma below_ceil k a x : 0 < a -> x < ceil_div k a -> x * a < k.
Proof. intros Ha H. unfold ceil_div in H. pose proof (Z.div_mod (k + a - 1) a ltac:(lia)). pose proof (Z.mod_pos_bound (k + a - 1) a Ha). nia. Qed.

Section U.
Variable u : use.
Hypothesis HU : fair_use u.
Variable groups : list (list (list Z)).
Hypothesis HG : whole_frames u groups.
Hypothesis HB : u_bk u = None.
Let E := u_env u.
Let F := List.concat groups.
Let all := w_trace (after u groups).

Definition doc_path (i : nat) : string :=
  if st_version (u_set u) =? 3 then (u_root u ++ "/meta/root/" ++ dec (Z.of_nat i) ++ ".array.json")%string
  else (u_root u ++ "/" ++ dec (Z.of_nat i) ++ "/.zarray")%string.

Lemma doc_loc i L : nth_error (u_L0 u :: u_Lr u) i = Some L -> mloc (l_cfg L) (st_version (u_set u) =? 3) = LF (doc_path i).
Proof.
  intros H. destruct (a_ok u HU i L H) as [OK LV]. unfold mloc. rewrite (lo_bk _ _ _ _ _ _ OK), (lo_root _ _ _ _ _ _ OK), HB. cbn [mkloc]. f_equal.
  unfold doc_path, meta_comps, l_level in *. rewrite LV. destruct (st_version (u_set u) =? 3); cbn [join_path]; rewrite !sapp_assoc; reflexivity.
Qed.

(** the array document that declares [k] frames *)
Definition array_doc (i : nat) (k : Z) : json :=
  (if st_version (u_set u) =? 2 then zarray_json else array_json)
    (ceil_div k (prodZ (lv_A u i))) (lv_dims u i) (u_t u) (option_map blosc_of (st_comp (u_set u))).

Lemma crash_v2 i t c : st_version (u_set u) = 2 -> is_level u i -> dies_in_batch all (doc_path i) t -> may_be_found E t (doc_path i) (Some c) ->
  c = [] \/ exists k, json_of c = Some (jval (array_doc i k)) /\ 0 <= k <= zlen (u_frames u F i) /\
    forall q cc x, 0 <= q -> q * d_chunk (at_level i (u_d0 u)) < ceil_div k (prodZ (lv_A u i)) -> in_bounds (map nch (lv_inner u i)) cc ->
      may_be_found E t (path_of_coords (u_root u ++ "/" ++ dec (Z.of_nat i)) (q :: cc)) x ->
      exists raw, x = Some raw /\ raw = u_enc u (u_dec u raw) /\
        chunk_holds (u_bpp u) (lv_A u i) (lv_H u i) (lv_W u i) (u_frames u F i) (map d_chunk (lv_dims u i)) (q :: cc) (u_dec u raw).
Proof.
  intros V Hi Hall Hc. pose proof (s_level_v2 u HU groups HG i V Hi) as LV2. unfold level_v2 in LV2.
  apply (is_level_nth u HU) in Hi as (L & HL).
  destruct (level_names u HU i L HL) as (N1 & N2 & N3 & N4 & N5 & N6 & N7 & N8).
  destruct (a_ok u HU i L HL) as [OK LV]. pose proof (a_final u HU groups HG i L HL) as FIN.
  destruct (a_good u HU i L HL) as [G EL]. destruct (a_level_comp u HU i L HL) as [EC ET].
  pose proof (doc_loc i L HL) as DL. rewrite V in OK, FIN, DL. change (2 =? 3) with false in *. destruct FIN as (_ & _ & FIN). specialize (FIN HB). fold all F in FIN.
  destruct (found_safe _ _ _ _ _ _ all t c DL FIN Hall Hc) as [->|(k & K1 & -> & K3)]; [left; reflexivity|]. right.
  exists k.
  assert (PA : 0 < prodZ (map d_array (l_mids L))) by (apply (prodA_pos u HU i L HL)).
  split.
  { unfold l_D, doc, array_doc. rewrite V. cbn [Z.eqb Pos.eqb]. rewrite EC, ET, <- N1, <- N5. apply dump_reads. apply (zarray_wf _ (u_bpp u)).
    + exact (g_f _ _ _ _ _ _ _ _ _ _ _ _ _ _ G).
    + apply ceil_nonneg; [lia|exact PA].
    + exact (a_compos u HU). }
  split; [exact K1|]. rewrite <- N5, <- N2.
  intros q cc x Hq Hn Hcc Hx. rewrite <- N8 in Hn.
  assert (Hn' : q * l_P L < k). { apply (below_ceil k _ _ PA) in Hn. unfold l_P. rewrite Z.mul_assoc. exact Hn. }
  assert (Hlt : q * lv_period u i < zlen (u_frames u F i)) by (rewrite <- N6; lia).
  rewrite N2 in Hcc. destruct (LV2 q cc Hq Hlt Hcc) as (raw & S1 & S2 & S3). rewrite <- N2 in Hcc.
  exists raw. rewrite <- N5 in S3. split; [|auto]. rewrite <- S1. unfold store, stored. rewrite HB. fold all. apply (K3 _ x); [|exact Hx].
  pose proof (ravel_bound _ _ Hcc) as Bc.
  exists q, (ravel (map nch (l_mids L ++ [l_dy L; l_dx L])) cc). split; [exact Hq|]. split; [exact Hn'|]. split.
  { unfold l_nbuf. rewrite DimProofs.nch_prod_split in Bc. exact Bc. }
  unfold cloc, base. rewrite (lo_root _ _ _ _ _ _ OK), (lo_bk _ _ _ _ _ _ OK), unravel_ravel, HB by exact Hcc. cbn [mkloc]. f_equal.
  unfold l_level in LV. rewrite LV. unfold data_comps, path_of_coords. cbn [map join_path]. rewrite !sapp_assoc. reflexivity.
Qed.

Lemma crash_v3 i t c : st_version (u_set u) = 3 -> is_level u i -> dies_in_batch all (doc_path i) t -> may_be_found E t (doc_path i) (Some c) ->
  c = [] \/ exists k, json_of c = Some (jval (array_doc i k)) /\ 0 <= k <= zlen (u_frames u F i) /\
    forall s sc x, 0 <= s -> (s + 1) * lv_shard_period u i <= k -> in_bounds (map nsh (lv_inner u i)) sc ->
      may_be_found E t (shard_key (u_root u ++ "/data/root/" ++ dec (Z.of_nat i)) (s :: sc)) x ->
      x = store u groups (shard_key (u_root u ++ "/data/root/" ++ dec (Z.of_nat i)) (s :: sc)).
Proof.
  intros V Hi Hall Hc.
  apply (is_level_nth u HU) in Hi as (L & HL).
  destruct (level_names u HU i L HL) as (N1 & N2 & N3 & N4 & N5 & N6 & N7 & N8).
  destruct (a_ok u HU i L HL) as [OK LV]. pose proof (a_final u HU groups HG i L HL) as FIN.
  destruct (a_good u HU i L HL) as [G EL]. destruct (a_level_comp u HU i L HL) as [EC ET].
  destruct (g_s _ _ _ _ _ _ _ _ _ _ _ _ _ _ G) as [Hs _]; [rewrite V; reflexivity|].
  pose proof (doc_loc i L HL) as DL. rewrite V in OK, FIN, DL. change (3 =? 3) with true in *. destruct FIN as (_ & _ & _ & _ & _ & FIN). specialize (FIN HB). fold all F in FIN.
  destruct (found_safe _ _ _ _ _ _ all t c DL FIN Hall Hc) as [->|(k & K1 & -> & K3)]; [left; reflexivity|]. right.
  exists k.
  assert (PA : 0 < prodZ (map d_array (l_mids L))) by (apply (prodA_pos u HU i L HL)).
  split.
  { unfold l_D, doc, array_doc. rewrite V. cbn [Z.eqb Pos.eqb]. rewrite EC, ET, <- N1, <- N5. apply dump_reads. apply (array_wf _ (u_bpp u)).
    + exact (g_f _ _ _ _ _ _ _ _ _ _ _ _ _ _ G).
    + exact Hs.
    + apply ceil_nonneg; [lia|exact PA].
    + exact (a_compos u HU). }
  split; [exact K1|]. rewrite <- N2.
  intros s sc x Hs0 Hn Hsc Hx. unfold store, stored. rewrite HB. fold all. apply (K3 _ x); [|exact Hx].
  pose proof (ravel_bound _ _ Hsc) as Bc. rewrite <- N7 in Hn.
  exists s, (Z.to_nat (ravel (map nsh (l_mids L ++ [l_dy L; l_dx L])) sc)). split; [exact Hs0|]. split; [exact Hn|]. split; [lia|].
  unfold sloc, base. rewrite (lo_root _ _ _ _ _ _ OK), (lo_bk _ _ _ _ _ _ OK), HB, Z2Nat.id, unravel_ravel by (try exact Hsc; lia).
  cbn [mkloc]. f_equal. unfold shard_key. unfold l_level in LV. rewrite LV. unfold data_comps. cbn [join_path]. rewrite !sapp_assoc. reflexivity.
Qed.
End U.
