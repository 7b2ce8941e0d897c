(** C60: on S3 the array document of a level appears last: from then on nothing of the level changes. *)
Require Import ZArith List Bool String Ascii Lia.
Require Import Verif.Base Verif.Spec Verif.Dim Verif.Limits Verif.Json Verif.World Verif.Writer Verif.Stream Verif.Api Verif.GridSpec Verif.LayoutSpec Verif.FrameSpec Verif.OnceSpec Verif.SessionSpec Verif.PyramidSpec Verif.StoreSpec Verif.MetaSpec Verif.JsonSpec Verif.CrashSpec Verif.Examples.
Require Verif.GridLevels Verif.ChunkStore Verif.DimProofs Verif.Radix Verif.FrameStream Verif.OnceProofs Verif.OnceStream Verif.OrderProofs Verif.OrderStream Verif.PropsLayout Verif.PropsFrame Verif.PropsGrid Verif.PropsOnce Verif.PropsChunks Verif.PropsMeta Verif.PropsCrash Verif.LevelsProofs Verif.StoreProofs Verif.ExamplesUse.
Import ListNotations.
Open Scope string_scope. Open Scope list_scope. Open Scope Z_scope.

(** two ways of cutting one list *)
Lemma cuts {A} (a : list A) : forall b c d, a ++ b = c ++ d -> (exists x, c = a ++ x /\ b = x ++ d) \/ (exists x, a = c ++ x /\ d = x ++ b).
Proof.
  induction a as [|y a IH]; intros b c d H; [left; exists c; auto|]. destruct c as [|z c]; [right; exists (y :: a); auto|]. cbn in H. injection H as <- H.
  destruct (IH b c d H) as [(x & -> & ->)|(x & -> & ->)]; [left|right]; exists x; auto.
Qed.

(** Whatever the environment does and whatever is appended (fewer than 2^32 frames): once the array document of level [i]
    has been uploaded, no chunk (v2) or shard (v3) of that level is uploaded any more. *)
Theorem C60_document_last : forall E st calls frame b root l i q cc w seen later,
  frame_has st frame -> bytes_given calls + frame * (zlen calls + 1) < 2 ^ 32 * frame ->
  store_at st (Some b) root -> st_dims st = Some l -> w_trace w = [] ->
  w_trace (fst (session E st calls w)) = seen ++ later ->
  0 <= q -> Forall (fun c => 0 <= c) cc -> List.length l = S (List.length cc) ->
  let at_ x := where_is (st_version st =? 3) root x in
  0 < uploads b (at_ (ArrayDoc (Z.of_nat i))) seen -> uploads b (at_ (Piece (Z.of_nat i) q cc)) later = 0.
Proof.
  intros E st calls frame b root l i q cc w seen later HF HB HS Hl W T Hq Hcc Hn at_ Up. destruct (PropsOnce.frame_is st frame HF) as (F1 & F2 & F3). pose proof (PropsFrame.store_place _ _ _ HS) as HP.
  set (v3 := st_version st =? 3) in *. set (km := at_ (ArrayDoc (Z.of_nat i))) in *. set (kd := at_ (Piece (Z.of_nat i) q cc)) in *.
  set (nd := List.length l).
  assert (Hnd : (3 <= nd)%nat). { destruct HF as (l' & d0 & mids & dy & dx & bpp & H1 & H2 & _). rewrite Hl in H1. injection H1 as <-. apply (f_equal (@List.length dim)) in H2. rewrite map_length in H2. cbn in H2. rewrite app_length in H2. cbn in H2. unfold nd. lia. }
  assert (Hlen : forall s, commit st = Ok s -> List.length (s_dims s) = nd).
  { intros s. unfold commit. rewrite Hl. unfold make_dimensions. destruct (Nat.ltb 2 _); cbn [obind]; [|discriminate]. intros X. injection X as <-. cbn. apply map_length. }
  assert (Sm : sensible v3 (nd - 1) (ArrayDoc (Z.of_nat i))) by (cbn; lia).
  assert (Sd : sensible v3 (nd - 1) (Piece (Z.of_nat i) q cc)) by (cbn; repeat split; auto; unfold nd; lia).
  assert (Role : forall it k, sensible v3 (nd - 1) it -> where_is v3 root it = k -> Some b = Some b -> forall it', sensible v3 (nd - 1) it' -> where_is v3 root it' = k -> Some it = Some it').
  { intros it k S1 S2 _ it' S3 S4. f_equal. apply (PropsLayout.C38_distinct_paths v3 root (nd - 1)); [lia|exact S1|exact S3|congruence]. }
  assert (Hcs : exists cs, (forall s ws, commit st = Ok s -> create_writers s = Ok ws -> Forall2 (OnceProofs.bw v3) cs ws /\ Forall OnceStream.new_w ws) /\
    forall j c, nth_error cs j = Some c -> c_level c = Z.of_nat j /\ c_root c = root /\ c_bucket c = Some b /\ List.length (c_dims c) = nd).
  { destruct (commit st) as [s|e| |] eqn:C; [|exists []; split; [discriminate|intros [|j] c; discriminate]..]. destruct (create_writers s) as [ws|e| |] eqn:Wr; [|exists []; split; [intros s' ws' X Y; injection X as <-; congruence|intros [|j] c; discriminate]..].
    destruct (OnceStream.writers_cfgs s ws Wr) as (cs & C1 & C2 & C3). destruct (FrameStream.commit_place _ _ C) as (P1 & P2 & _). rewrite HP in P1. exists cs. split.
    - intros s' ws' X Y. injection X as <-. rewrite Wr in Y. injection Y as <-. unfold v3. rewrite <- P2. auto.
    - intros j c Hj. destruct (C3 j c Hj) as (A1 & A2 & A3 & A4). repeat split; [exact A1|congruence|congruence|rewrite A4; apply Hlen; reflexivity]. }
  destruct Hcs as (cs & Hw & Hc).
  assert (Kne : km <> kd). { intros X. assert (Y : ArrayDoc (Z.of_nat i) = Piece (Z.of_nat i) q cc) by (apply (PropsLayout.C38_distinct_paths v3 root (nd - 1)); [lia|exact Sm|exact Sd|exact X]). discriminate. }
  destruct (nth_error cs i) as [ci|] eqn:Hi.
  - assert (Z0 : OnceProofs.cnt b km w = 0) by (unfold OnceProofs.cnt; rewrite W; reflexivity).
    pose proof (OrderStream.o_session E b km kd v3 root (Some b) nd cs frame i ci q cc Hnd Hc (Role _ km Sm eq_refl) (Role _ kd Sd eq_refl) eq_refl Hi eq_refl Kne F3 st calls HP eq_refl F1 Hw ltac:(lia) w Z0) as (t1 & t2 & T1 & T2 & T3).
    rewrite T in T1. destruct (cuts _ _ _ _ T1) as [(x & -> & ->)|(x & -> & ->)].
    + rewrite OnceProofs.uploads_app in T2. pose proof (PropsOnce.uploads_nonneg b km x). lia.
    + rewrite OnceProofs.uploads_app in T3. pose proof (PropsOnce.uploads_nonneg b kd x). pose proof (PropsOnce.uploads_nonneg b kd later). lia.
  - (* no such level *)
    set (it := Some (Piece (Z.of_nat i) q cc)).
    assert (HT : forall m j f tw, OnceStream.T b kd v3 cs frame it 0 (fun _ _ => True) m j f tw -> OnceProofs.cnt b kd (snd tw) <= 0) by (intros m j f tw; apply (OnceStream.T_cnt b kd v3 nd cs frame it Hnd)).
    assert (Sum : forall ws p, Forall OnceStream.new_w ws -> (p + List.length ws <= i)%nat -> OnceStream.wsum b kd it p ws = 0).
    { clear. induction ws as [|a ws IH]; intros p H Hp; [reflexivity|]. inversion H as [|? ? (A1 & A2 & A3) H2]; subst. cbn [OnceStream.wsum List.length] in *. rewrite (IH (S p) H2) by lia. unfold OnceStream.mayi, OnceProofs.may, OnceProofs.futq, OnceProofs.futm, OnceStream.qof, OnceStream.mtf, it. rewrite A1, A2. destruct (Z.eqb_spec (Z.of_nat i) (Z.of_nat p)); [lia|]. reflexivity. }
    assert (Hz : OnceProofs.cnt b kd (fst (session E st calls w)) <= 0).
    { apply (OnceStream.t_session E b kd v3 root (Some b) nd cs frame it Hnd Hc (Role _ kd Sd eq_refl) 0 (fun _ _ => True) (fun _ _ _ _ _ _ _ _ _ _ _ _ => I) F3 0 (HT 0 0%nat 0) st calls 0);
        [lia|lia|exact HP|reflexivity|exact F1|intros s ws X Y; split; [exact (Hw s ws X Y)|auto]| |lia|unfold OnceProofs.cnt; rewrite W; reflexivity].
      intros s ws X Y. destruct (Hw s ws X Y) as [W1 W2]. rewrite (Sum ws 0%nat W2); [unfold OnceStream.dtf, it; lia|]. assert (List.length ws = List.length cs) by (clear -W1; induction W1; cbn; congruence). apply nth_error_None in Hi. lia. }
    unfold OnceProofs.cnt in Hz. rewrite T, OnceProofs.uploads_app in Hz. pose proof (PropsOnce.uploads_nonneg b kd seen). pose proof (PropsOnce.uploads_nonneg b kd later). lia.
Qed.
(** Seen from outside: at every moment at which the document of level [i] is not the one from before the stream was
    created, it and all chunks or shards of the level are what they are at the end. *)
Theorem C60_complete_when_described : forall E st calls frame b root l i q cc w seen later,
  frame_has st frame -> bytes_given calls + frame * (zlen calls + 1) < 2 ^ 32 * frame ->
  store_at st (Some b) root -> st_dims st = Some l -> w_trace w = [] ->
  w_trace (fst (session E st calls w)) = seen ++ later ->
  0 <= q -> Forall (fun c => 0 <= c) cc -> List.length l = S (List.length cc) ->
  let at_ x := where_is (st_version st =? 3) root x in
  object_of E seen b (at_ (ArrayDoc (Z.of_nat i))) <> e_obj0 E b (at_ (ArrayDoc (Z.of_nat i))) ->
  object_of E seen b (at_ (ArrayDoc (Z.of_nat i))) = object_of E (seen ++ later) b (at_ (ArrayDoc (Z.of_nat i))) /\
  object_of E seen b (at_ (Piece (Z.of_nat i) q cc)) = object_of E (seen ++ later) b (at_ (Piece (Z.of_nat i) q cc)).
Proof.
  intros E st calls frame b root l i q cc w seen later HF HB HS Hl W T Hq Hcc Hn at_ Up. split.
  - destruct (PropsOnce.C59_whole_or_as_before E st calls frame b (at_ (ArrayDoc (Z.of_nat i))) w seen later HF HB W T) as [X|X]; [contradiction|exact X].
  - symmetry. apply PropsOnce.same_object. apply (C60_document_last E st calls frame b root l i q cc w seen later); auto. fold (at_ (ArrayDoc (Z.of_nat i))).
    destruct (Z.eq_dec (uploads b (at_ (ArrayDoc (Z.of_nat i))) seen) 0) as [Z0|Z0]; [|pose proof (PropsOnce.uploads_nonneg b (at_ (ArrayDoc (Z.of_nat i))) seen); lia]. destruct Up. exact (PropsOnce.same_object E b _ [] seen Z0).
Qed.

(** *** C37 on S3 *)
Lemma fair_frame u : fair_use u -> frame_has (u_set u) (u_frame u).
Proof.
  intros U. destruct (fu_dims _ U) as (l & L & D). exists l, (u_d0 u), (u_mids u), (u_dy u), (u_dx u), (u_bpp u). split; [exact L|]. split; [exact D|]. split; [apply (fu_bpp _ U)|].
  destruct (fu_fits _ U) as [B _ I0 F _ _ _ _]. apply Forall_app in I0 as [_ I0]. inversion I0 as [|? ? (Y & _) I1]; subst. inversion I1 as [|? ? (X & _) _]; subst. unfold u_frame. repeat split; try lia; nia.
Qed.
Theorem C37_s3_as_at_the_end : forall u groups b seen later i q cc,
  fair_use u -> whole_frames u groups -> u_bk u = Some b -> w_trace (u_world u) = [] -> zlen (List.concat groups) + zlen groups + 1 < 2 ^ 32 ->
  w_trace (after u groups) = seen ++ later -> 0 <= q -> Forall (fun c => 0 <= c) cc -> List.length cc = List.length (u_mids u ++ [u_dy u; u_dx u]) ->
  let at_ x := where_is (st_version (u_set u) =? 3) (u_root u) x in
  object_of (u_env u) seen b (at_ (ArrayDoc (Z.of_nat i))) <> e_obj0 (u_env u) b (at_ (ArrayDoc (Z.of_nat i))) ->
  object_of (u_env u) seen b (at_ (ArrayDoc (Z.of_nat i))) = store u groups (at_ (ArrayDoc (Z.of_nat i))) /\
  object_of (u_env u) seen b (at_ (Piece (Z.of_nat i) q cc)) = store u groups (at_ (Piece (Z.of_nat i) q cc)).
Proof.
  intros u groups b seen later i q cc U G B W N T Hq Hcc Hl at_ H. pose proof (fair_frame u U) as HF. destruct (fu_dims _ U) as (l & L & D). destruct (PropsGrid.given_bytes u groups G) as [_ G2].
  unfold store, stored. rewrite B, T. apply (C60_complete_when_described (u_env u) (u_set u) (calls groups) (u_frame u) b (u_root u) l i q cc (u_world u)); auto.
  - rewrite G2. unfold calls. replace (zlen (map (@List.concat Z) groups)) with (zlen groups) by (unfold zlen; rewrite map_length; reflexivity). destruct HF as (_ & _ & _ & _ & _ & _ & _ & _ & _ & _ & _ & _ & F). nia.
  - rewrite <- B. apply PropsGrid.fair_store. exact U.
  - apply (f_equal (@List.length dim)) in D. rewrite map_length in D. rewrite D, Hl. reflexivity.
Qed.
Theorem C37_v2_s3 : forall u groups b,
  fair_use u -> whole_frames u groups -> st_version (u_set u) = 2 -> u_bk u = Some b -> w_trace (u_world u) = [] -> zlen (List.concat groups) + zlen groups + 1 < 2 ^ 32 ->
  exists G, level_frames u (List.concat groups) G /\
    forall seen later i c, w_trace (after u groups) = seen ++ later -> is_level u i -> 0 < zlen (G i) ->
      object_of (u_env u) seen b (PropsCrash.array_path u i) = Some c -> e_obj0 (u_env u) b (PropsCrash.array_path u i) <> Some c ->
      exists s0, PropsCrash.declares u i (zlen (G i)) s0 c /\
        forall q cc, 0 <= q -> q * d_chunk (at_level i (u_d0 u)) < s0 -> in_bounds (map nch (lv_inner u i)) cc ->
          exists raw, object_of (u_env u) seen b (path_of_coords (u_root u ++ "/" ++ dec (Z.of_nat i)) (q :: cc)) = Some raw /\ raw = u_enc u (u_dec u raw) /\
            chunk_holds (u_bpp u) (lv_A u i) (lv_H u i) (lv_W u i) (G i) (map d_chunk (lv_dims u i)) (q :: cc) (u_dec u raw).
Proof.
  intros u groups b U W V B T N. destruct (PropsChunks.C07_C31_v2_chunks u groups U W V) as (G & GF & GL). exists G. split; [exact GF|].
  intros seen later i c Tr Hi Hn Hc He. destruct GF as [G0 Gn _ _]. assert (V3 : (st_version (u_set u) =? 3) = false) by (rewrite V; reflexivity).
  assert (AP : PropsCrash.array_path u i = where_is false (u_root u) (ArrayDoc (Z.of_nat i))) by (unfold PropsCrash.array_path, array_key; rewrite V; reflexivity).
  assert (Same : forall q cc, 0 <= q -> in_bounds (map nch (lv_inner u i)) cc -> object_of (u_env u) seen b (PropsCrash.array_path u i) = store u groups (PropsCrash.array_path u i) /\
    object_of (u_env u) seen b (path_of_coords (u_root u ++ "/" ++ dec (Z.of_nat i)) (q :: cc)) = store u groups (path_of_coords (u_root u ++ "/" ++ dec (Z.of_nat i)) (q :: cc))).
  { intros q cc Hq Hcc. pose proof (C37_s3_as_at_the_end u groups b seen later i q cc U W B T N Tr Hq (GridLevels.in_bounds_nonneg _ _ Hcc)) as X. cbv zeta in X. rewrite V3, <- AP in X. apply X; [|congruence].
    apply Radix.in_bounds_length in Hcc. rewrite <- Hcc. unfold lv_inner, lv_dims. rewrite !map_length. reflexivity. }
  assert (A0 : 0 < prodZ (lv_A u i)). { destruct (proj1 (ChunkStore.is_level_nth u U i) Hi) as [Lv HL]. destruct (ChunkStore.level_names u U i Lv HL) as (_ & _ & _ & _ & E5 & _). rewrite <- E5. exact (StoreProofs.prodA_pos u U i Lv HL). }
  destruct (PropsMeta.C06_C26_array_documents u groups i U W Hi) as (c' & v & K & J & KU & s0 & S1 & S2); [unfold has_document; rewrite V; cbn; rewrite <- Gn; exact Hn|].
  assert (c' = c). { assert (O : object_of (u_env u) seen b (PropsCrash.array_path u i) = store u groups (PropsCrash.array_path u i)).
    { assert (C0 : List.length (map (fun _ => 0) (u_mids u ++ [u_dy u; u_dx u])) = List.length (u_mids u ++ [u_dy u; u_dx u])) by apply map_length.
      assert (C1 : Forall (fun x => 0 <= x) (map (fun _ => 0) (u_mids u ++ [u_dy u; u_dx u]))) by (apply Forall_map, Forall_forall; intros; lia).
      pose proof (C37_s3_as_at_the_end u groups b seen later i 0 _ U W B T N Tr (Z.le_refl 0) C1 C0) as X. cbv zeta in X. rewrite V3, <- AP in X. apply X. congruence. }
    unfold store in O. unfold key in K. fold (PropsCrash.array_path u i) in K. congruence. }
  subst c'. unfold declared in S2. rewrite V in S2. cbn [Z.eqb Pos.eqb] in S2. rewrite <- Gn in S2.
  exists s0. split; [exists v; split; [exact J|]; split; [exact KU|]; split; [exact S1|exact S2]|]. intros q cc Hq Hs Hcc. destruct (Same q cc Hq Hcc) as [_ ->]. apply GL; auto.
  unfold lv_period. clear -A0 S2 Hs. nia.
Qed.

(** *** The hypotheses can be met: the array document of 12 frames on S3, at the end and before its upload *)
Example C60_hypotheses : frame_has (ex_s3_settings 2) 70 /\ bytes_given PropsOnce.once_calls + 70 * (zlen PropsOnce.once_calls + 1) < 2 ^ 32 * 70 /\
  store_at (ex_s3_settings 2) (Some "bucket") "out" /\ w_trace ex_world = [] /\
  uploads "bucket" (where_is false "out" (ArrayDoc 0)) (PropsOnce.once_end 100) = 1 /\
  uploads "bucket" (where_is false "out" (Piece 0 0 [0; 0; 0])) (PropsOnce.once_end 100) = 1.
Proof.
  destruct PropsOnce.C59_hypotheses as (H1 & H2 & H3 & H4 & _). split; [exact H1|]. split; [exact H2|]. split.
  { split; [eexists; split; [reflexivity|exact (ExamplesUse.trim_at _)]|eexists; eexists; split; [reflexivity|]; split; [exact (ExamplesUse.trim_at _)|reflexivity]]. }
  split; [reflexivity|]. split; vm_compute; reflexivity.
Qed.
Example C37_v2_s3_hypotheses : let u := ExamplesUse.ex_use 2 true None false dt_uint16 2 (mkdim "t" ty_time 0 2 1) in let groups := ExamplesUse.ex_groups 2 3 in
  fair_use u /\ whole_frames u groups /\ st_version (u_set u) = 2 /\ u_bk u = Some "bucket" /\ w_trace (u_world u) = [] /\ zlen (List.concat groups) + zlen groups + 1 < 2 ^ 32 /\
  is_level u 0 /\ exists c, object_of (u_env u) (w_trace (after u groups)) "bucket" (PropsCrash.array_path u 0) = Some c /\ e_obj0 (u_env u) "bucket" (PropsCrash.array_path u 0) <> Some c.
Proof.
  cbv zeta. split; [apply ExamplesUse.ex_use_fair; cbn; auto 10|]. split; [apply ExamplesUse.ex_frames_whole; lia|]. split; [reflexivity|]. split; [reflexivity|]. split; [reflexivity|]. split; [reflexivity|]. split; [left; reflexivity|].
  eexists. split; [vm_compute; reflexivity|]. vm_compute. discriminate.
Qed.

(** *** What C60 does not say: a store that is overwritten. An older array document stays until the end, while the chunks it
    describes are replaced one after the other (on S3 nothing is removed first): the process dies after the first upload. *)
Definition over_env : env :=
  mkenv (fun _ => None) (fun _ => false) (fun _ k => if String.eqb k "out/0/0/0/0/0" || String.eqb k "out/0/.zarray" then Some [9] else None) (fun _ => false) (fun _ => true) 2
        (fun _ _ d => Some d) (fun _ => true) (fun s => Some s) (fun _ _ => true).
Theorem C60_overwriting_refuted : exists E st calls w seen later b old,
  w_trace w = [] /\ st_version st = 2 /\ store_at st (Some b) "out" /\ w_trace (fst (session E st calls w)) = seen ++ later /\ snd (session E st calls w) = Ok (Some ([(0, Some 840)], true)) /\
  let doc := where_is false "out" (ArrayDoc 0) in let chunk := where_is false "out" (Piece 0 0 [0; 0; 0]) in
  e_obj0 E b doc = Some old /\ object_of E seen b doc = Some old /\
  object_of E seen b chunk <> e_obj0 E b chunk /\ e_obj0 E b chunk <> None /\ object_of E seen b chunk <> None.
Proof.
  exists over_env, (ex_s3_settings 2), [zrep 1 840], ex_world, (firstn 1 (w_trace (fst (session over_env (ex_s3_settings 2) [zrep 1 840] ex_world)))), (skipn 1 (w_trace (fst (session over_env (ex_s3_settings 2) [zrep 1 840] ex_world)))), "bucket", [9].
  split; [reflexivity|]. split; [reflexivity|]. split; [exact (proj1 (proj2 (proj2 C60_hypotheses)))|]. split; [symmetry; apply firstn_skipn|]. split; [vm_compute; reflexivity|].
  cbv zeta. split; [vm_compute; reflexivity|]. split; [vm_compute; reflexivity|]. split; [vm_compute; discriminate|]. split; vm_compute; discriminate.
Qed.

Print Assumptions C60_document_last.
Print Assumptions C60_complete_when_described.
Print Assumptions C37_s3_as_at_the_end.
Print Assumptions C37_v2_s3.
Print Assumptions C60_overwriting_refuted.
