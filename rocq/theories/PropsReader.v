(** C62: a reader that is told nothing but the location and the format version gets the appended data. The reader is in ReaderSpec.v; [fair_use],
    [whole_frames] are in SessionSpec.v, [store], [is_level], [level_frames], the extents of the levels in StoreSpec.v, [appended_byte] in Spec.v. *)
Require Import ZArith List Bool String Ascii Lia.
Require Import Verif.Base Verif.Spec Verif.Dim Verif.Limits Verif.Json Verif.World Verif.Writer Verif.WriterProofs Verif.LevelProofs Verif.Stream Verif.Api Verif.SettingsSpec Verif.SessionSpec Verif.PyramidSpec Verif.StoreSpec Verif.JsonSpec Verif.MetaSpec
  Verif.SessionProofs Verif.JsonProofs Verif.StoreProofs Verif.LevelsProofs Verif.ChunkStore Verif.ReaderSpec Verif.ExamplesUse Verif.PropsStore Verif.PropsMeta.
Require Verif.PropsChunks Verif.PathProofs Verif.Radix Verif.Examples Verif.PyramidProofs.
Import ListNotations.
Open Scope string_scope. Open Scope list_scope. Open Scope Z_scope.

Definition reader_kind (k : kind) : number_kind := match k with unsigned => Unsigned | signed => Signed | floating => Floating end.

(** The reader opens level [i]; it has the extents of that level, with as many positions along the append dimension as the frames [G] need, and
    the type that was asked for; every element is the one of the frames in [G] (0 where the last position is not complete). *)
Definition reads_level (u : use) (groups : list (list (list Z))) (i : nat) (G : list (list Z)) : Prop :=
  let path := dec (Z.of_nat i) in
  let A := lv_A u i in
  exists a, open_array (st_version (u_set u)) (store u groups) (u_root u) path = Some a /\
    ai_shape a = ceil_div (zlen G) (prodZ A) :: A ++ [lv_H u i; lv_W u i] /\
    ai_kind a = reader_kind (kind_of (st_dtype (u_set u))) /\ bytes_of_type (st_dtype (u_set u)) = Ok (ai_bytes a) /\
    forall t mm y x, 0 <= t < ceil_div (zlen G) (prodZ A) -> in_bounds A mm -> 0 <= y < lv_H u i -> 0 <= x < lv_W u i ->
      element (store u groups) (u_dec u) (u_root u) path a (t :: mm ++ [y; x])
      = Some (map (fun b => appended_byte (ai_bytes a) A (lv_W u i) G t mm y x (Z.of_nat b)) (seq 0 (Z.to_nat (ai_bytes a)))).

(** the compression settings, if any, ask for Blosc (C32_refuted: with compressor None and settings the documents name a codec that does not exist) *)
Definition real_compressor (st : settings) : Prop := match st_comp st with Some c => cs_compressor c = 1 | None => True end.

(** *** The documents, as the reader reads them *)
Lemma ints_in_vints l : ints_in (map vint l) = Some l.
Proof. induction l as [|z l IH]; [reflexivity|]. cbn [map vint ints_in]. rewrite IH. reflexivity. Qed.
Lemma int_list_vints l : int_list (Some (vints l)) = Some l.
Proof. apply ints_in_vints. Qed.

Lemma type_found u : fair_use u -> type_of (if st_version (u_set u) =? 2 then types_v2 else types_v3) (Some (VStr (u_t u))) = Some (reader_kind (kind_of (st_dtype (u_set u))), u_bpp u).
Proof.
  intros HU. rewrite (u_t_name u HU). destruct (fu_doc _ HU) as (_ & _ & T & _). pose proof (fu_bpp _ HU) as B.
  set (bpp := u_bpp u) in *. set (dt := st_dtype (u_set u)) in *. clearbody bpp dt.
  assert (H : dt = 0 \/ dt = 1 \/ dt = 2 \/ dt = 3 \/ dt = 4 \/ dt = 5 \/ dt = 6 \/ dt = 7 \/ dt = 8 \/ dt = 9) by lia.
  destruct (two_or_three u HU) as [V|V]; rewrite V; decompose [or] H; subst dt; vm_compute in B; injection B as <-; vm_compute; reflexivity.
Qed.

Lemma blosc_accepted c : compression_documented c -> cs_compressor c = 1 -> 0 <= cs_level c -> 0 <= cs_shuffle c ->
  existsb (is_text (Some (VStr (codec_name (cs_codec c))))) ["blosclz"; "lz4"; "lz4hc"; "zlib"; "zstd"] = true /\
  existsb (is_int (Some (vint (cs_level c)))) [0; 1; 2; 3; 4; 5; 6; 7; 8; 9] = true /\ existsb (is_int (Some (vint (cs_shuffle c)))) [0; 1; 2] = true.
Proof.
  intros (A1 & A2 & A3 & A4 & A5) C L S0. specialize (A3 C). split; [|split].
  - assert (cs_codec c = 1 \/ cs_codec c = 2) as [-> | ->] by lia; reflexivity.
  - apply existsb_exists. exists (cs_level c). split; [|apply Z.eqb_refl]. cbn [In]. lia.
  - apply existsb_exists. exists (cs_shuffle c). split; [|apply Z.eqb_refl]. cbn [In]. lia.
Qed.

Definition info_of (u : use) (i : nat) (n : Z) : array_info :=
  mkinfo (ceil_div n (prodZ (lv_A u i)) :: map d_array (lv_inner u i)) (map d_chunk (lv_dims u i)) (if st_version (u_set u) =? 2 then None else Some (map d_shard (lv_dims u i)))
    (reader_kind (kind_of (st_dtype (u_set u)))) (u_bpp u) (match st_comp (u_set u) with Some _ => true | None => false end).

Lemma opened u groups i : fair_use u -> whole_frames u groups -> real_compressor (u_set u) -> is_level u i ->
  let n := zlen (List.concat groups) / 2 ^ Z.of_nat i in
  has_document u i n ->
  open_array (st_version (u_set u)) (store u groups) (u_root u) (dec (Z.of_nat i)) = Some (info_of u i (declared u i n)).
Proof.
  intros HU HG HC Hi n Hd. destruct (the_document u groups i HU HG Hi Hd) as (c & v & K & J & _ & ->). unfold key, array_key in K. fold n in J.
  pose proof (type_found u HU) as TF. unfold open_array, info_of, store, document_at.
  assert (CD : forall c0, st_comp (u_set u) = Some c0 -> compression_documented c0) by (destruct (fu_doc _ HU) as (_ & _ & _ & C & _); exact C).
  set (s0 := ceil_div (declared u i n) (prodZ (lv_A u i))) in *.
  assert (Ln : List.length (s0 :: map d_array (lv_inner u i)) = List.length (map d_chunk (lv_dims u i))) by (unfold lv_inner, lv_dims, u_dims; cbn [List.length]; rewrite !map_length; reflexivity).
  assert (Ln2 : List.length (s0 :: map d_array (lv_inner u i)) = List.length (map d_shard (lv_dims u i))) by (unfold lv_inner, lv_dims, u_dims; cbn [List.length]; rewrite !map_length; reflexivity).
  assert (Tl : tl (lv_dims u i) = lv_inner u i) by reflexivity.
  destruct (two_or_three u HU) as [V|V]; unfold the_json in J; rewrite V in *; cbn [Z.eqb Pos.eqb] in *; fold s0 in J.
  - rewrite K, J.
    unfold zarray_json. cbn [jval map fst snd]. unfold array_v2. cbn [field lookup String.eqb Ascii.eqb Bool.eqb is_int is_text is_null vint andb Z.eqb Pos.eqb].
    rewrite Tl, !jval_ints, !int_list_vints. rewrite TF.
    destruct (st_comp (u_set u)) as [c0|] eqn:Cs; cbn [option_map].
    + unfold real_compressor in HC. rewrite Cs in HC. destruct (blosc_accepted c0 (CD c0 eq_refl) HC) as (B1 & B2 & B3); [destruct (CD c0 eq_refl) as (_ & _ & _ & ? & ?); lia..|].
      unfold compressor_v2, blosc_codec, is_null, opt_field. cbn [jval map fst snd blosc_of b_codec b_clevel b_shuffle field lookup String.eqb Ascii.eqb Bool.eqb]. unfold vint in B2, B3. rewrite B1, B2, B3. cbn [is_text String.eqb Ascii.eqb Bool.eqb andb].
      rewrite Ln, Nat.eqb_refl. reflexivity.
    + unfold compressor_v2. cbn [is_null]. rewrite Ln, Nat.eqb_refl. reflexivity.
  - change ("/" ++ "meta/root/" ++ dec (Z.of_nat i) ++ ".array.json")%string with ("/meta/root/" ++ dec (Z.of_nat i) ++ ".array.json")%string in K. rewrite K, J.
    unfold array_json. cbn [jval map fst snd]. unfold array_v3. cbn [field lookup opt_field String.eqb Ascii.eqb Bool.eqb is_int is_text is_null vint andb Z.eqb Pos.eqb].
    rewrite Tl, !jval_ints, !int_list_vints. rewrite TF.
    destruct (st_comp (u_set u)) as [c0|] eqn:Cs; cbn [option_map].
    + unfold real_compressor in HC. rewrite Cs in HC. destruct (blosc_accepted c0 (CD c0 eq_refl) HC) as (B1 & B2 & B3); [destruct (CD c0 eq_refl) as (_ & _ & _ & ? & ?); lia..|].
      unfold compressor_v3, blosc_codec, is_null, opt_field. cbn [jval map fst snd blosc_of b_codec b_clevel b_shuffle field lookup String.eqb Ascii.eqb Bool.eqb]. unfold vint in B2, B3. rewrite B1, B2, B3. cbn [is_text String.eqb Ascii.eqb Bool.eqb andb].
      rewrite <- Ln, <- Ln2, !Nat.eqb_refl. reflexivity.
    + unfold compressor_v3. cbn [is_null]. rewrite <- Ln, <- Ln2, !Nat.eqb_refl. reflexivity.
Qed.

Lemma paths_found sc l : paths_in (map (fun i => dataset i (sc i)) l) = Some (map (fun i => dec (Z.of_nat i)) l).
Proof. induction l as [|i l IH]; [reflexivity|]. cbn [map paths_in]. rewrite IH. reflexivity. Qed.
Lemma listed u groups : fair_use u -> whole_frames u groups -> exists N, levels_to u N /\
  level_paths (st_version (u_set u)) (store u groups) (u_root u) = Some (map (fun i => dec (Z.of_nat i)) (seq 0 (S N))).
Proof.
  intros HU HG. destruct (C35_datasets u groups HU HG) as (N & HN & c & v & K & J & _ & m & M1 & (m' & axes & -> & _ & D & _)). exists N. split; [exact HN|].
  unfold level_paths, group_attributes, document_at, store. unfold key in K.
  destruct (two_or_three u HU) as [V|V]; rewrite V in *; cbn [Z.eqb Pos.eqb] in *.
  - destruct (a_zgroup u HU groups HG V) as (c2 & K2 & J2). unfold key in K2. change ("/" ++ ".zattrs")%string with "/.zattrs" in K. change ("/" ++ ".zgroup")%string with "/.zgroup" in K2. rewrite K2, J2. cbn [opt_field field lookup String.eqb Ascii.eqb Bool.eqb is_int vint Z.eqb Pos.eqb].
    rewrite K, J. injection M1 as ->. cbn [opt_field field lookup String.eqb Ascii.eqb Bool.eqb]. cbn [field] in D. rewrite D. apply paths_found.
  - destruct (a_zarr3 u HU groups HG V) as (c2 & K2 & J2). unfold key in K2. change ("/" ++ "meta/root.group.json")%string with "/meta/root.group.json" in K. change ("/" ++ "zarr.json")%string with "/zarr.json" in K2. rewrite K2, J2. cbn [opt_field field lookup String.eqb Ascii.eqb Bool.eqb is_text andb].
    rewrite K, J. cbn [opt_field]. cbn [field] in M1 |- *. rewrite M1. cbn [opt_field field lookup String.eqb Ascii.eqb Bool.eqb]. cbn [field] in D. rewrite D. apply paths_found.
Qed.

Lemma inside_iff sh : forall idx, inside sh idx = true <-> in_bounds sh idx.
Proof.
  unfold inside. induction sh as [|n sh IH]; intros [|k idx]; cbn [List.length Nat.eqb combine forallb in_bounds andb]; try (split; [discriminate|intros []]); [split; auto|].
  specialize (IH idx). rewrite <- IH. rewrite !andb_true_iff, Z.leb_le, Z.ltb_lt. tauto.
Qed.
Lemma inside_app sh sh' idx idx' : in_bounds sh idx -> in_bounds sh' idx' -> in_bounds (sh ++ sh') (idx ++ idx').
Proof. revert idx. induction sh as [|n sh IH]; intros [|k idx] H H'; cbn in *; auto; try contradiction. destruct H. split; auto. Qed.
Lemma element_inside u i n t mm y x : 0 <= t < ceil_div n (prodZ (lv_A u i)) -> in_bounds (lv_A u i) mm -> 0 <= y < lv_H u i -> 0 <= x < lv_W u i ->
  inside (ai_shape (info_of u i n)) (t :: mm ++ [y; x]) = true.
Proof.
  intros Ht Hm Hy Hx. apply inside_iff. cbn [info_of ai_shape]. split; [exact Ht|]. unfold lv_inner. rewrite !map_app. apply inside_app; [exact Hm|]. unfold lv_H, lv_W in *. cbn [map in_bounds]. repeat split; try apply Hy; try apply Hx.
Qed.
Lemma shape_of u i : map d_array (lv_inner u i) = lv_A u i ++ [lv_H u i; lv_W u i].
Proof. unfold lv_inner, lv_A, lv_H, lv_W. rewrite !map_app. reflexivity. Qed.

Lemma read2_ext store f g root chunks bpp idx b : (forall r, f r = g r) -> read_v2 store f root chunks bpp idx b = read_v2 store g root chunks bpp idx b.
Proof. intros H. unfold read_v2. destruct (store _); [rewrite H|]; reflexivity. Qed.
Lemma read3_ext store f g root chunks shards bpp idx b : (forall r, f r = g r) -> read_v3 store f root chunks shards bpp idx b = read_v3 store g root chunks shards bpp idx b.
Proof. intros H. unfold read_v3. destruct (store _); [|reflexivity]. destruct (shard_chunk _ _ _); [rewrite H|]; reflexivity. Qed.
Lemma decodes u : fair_use u -> forall r, (if match st_comp (u_set u) with Some _ => true | None => false end then u_dec u else fun raw => raw) r = u_dec u r.
Proof. intros HU r. pose proof (fu_codec _ HU) as X. destruct (st_comp (u_set u)); [reflexivity|]. symmetry. apply X. Qed.

(** *** C62, version 2: on the file system and on S3 *)
Theorem C62_v2_reader : forall u groups,
  fair_use u -> whole_frames u groups -> real_compressor (u_set u) -> st_version (u_set u) = 2 ->
  exists N G, levels_to u N /\ level_frames u (List.concat groups) G /\
    level_paths 2 (store u groups) (u_root u) = Some (map (fun i => dec (Z.of_nat i)) (seq 0 (S N))) /\
    forall i, (i <= N)%nat -> G i <> [] -> reads_level u groups i (G i).
Proof.
  intros u groups HU HG HC V. destruct (listed u groups HU HG) as (N & HN & HP). rewrite V in HP. exists N, (u_frames u (List.concat groups)).
  split; [exact HN|]. split; [apply u_levels; auto using PropsChunks.frames_whole|]. split; [exact HP|]. intros i Hi Ne. apply HN in Hi.
  destruct (proj1 (is_level_nth u HU i) Hi) as [L HL]. destruct (level_names u HU i L HL) as (E1 & E2 & E3 & E4 & E5 & E6 & E7 & E8).
  pose proof (frames_count u (List.concat groups) i) as EN.
  assert (Hd : has_document u i (zlen (List.concat groups) / 2 ^ Z.of_nat i)).
  { unfold has_document. rewrite V. cbn [Z.eqb Pos.eqb]. rewrite <- EN. destruct (u_frames u (List.concat groups) i); [congruence|unfold zlen; cbn [List.length]; lia]. }
  pose proof (opened u groups i HU HG HC Hi Hd) as O. unfold declared in O. rewrite V in O. cbn [Z.eqb Pos.eqb] in O. rewrite <- EN in O.
  unfold reads_level. cbv zeta. eexists. rewrite V. split; [exact O|]. split; [cbn [info_of ai_shape]; rewrite shape_of; reflexivity|]. split; [reflexivity|]. split; [exact (fu_bpp _ HU)|].
  intros t mm y x Ht Hm Hy Hx. unfold element. rewrite element_inside by auto. f_equal. apply map_ext_in. intros b Hb. apply in_seq in Hb.
  unfold info_of. cbn [ai_shards ai_chunks ai_bytes ai_blosc]. rewrite V. cbn [Z.eqb Pos.eqb]. rewrite (read2_ext _ _ _ _ _ _ _ _ (decodes u HU)).
  pose proof (fit_bpp _ _ _ _ _ (fu_fits _ HU)). cbn [info_of ai_bytes] in Hb.
  pose proof (a_read2 u HU groups HG i L V HL t mm y x (Z.of_nat b)) as R. cbv zeta in R. rewrite E5, E1, E3, E4 in R. apply R; auto. lia.
Qed.

(** *** C62, version 3 *)
(** Full statement: without the hypotheses on shards and on the last row. False: C12_refuted (several chunks per shard along the append dimension),
    C14_v3_s3_refuted (on S3, last row not full). *)
Theorem C62_v3_reader_partial : forall u groups,
  fair_use u -> whole_frames u groups -> real_compressor (u_set u) -> st_version (u_set u) = 3 ->
  exists N G, levels_to u N /\ level_frames u (List.concat groups) G /\
    level_paths 3 (store u groups) (u_root u) = Some (map (fun i => dec (Z.of_nat i)) (seq 0 (S N))) /\
    forall i, (i <= N)%nat -> G i <> [] ->
      d_shard (at_level i (u_d0 u)) = 1 -> u_bk u = None \/ zlen (G i) mod lv_period u i = 0 ->
      reads_level u groups i (G i).
Proof.
  intros u groups HU HG HC V. destruct (listed u groups HU HG) as (N & HN & HP). rewrite V in HP. exists N, (u_frames u (List.concat groups)).
  split; [exact HN|]. split; [apply u_levels; auto using PropsChunks.frames_whole|]. split; [exact HP|]. intros i Hi Ne H1 Hfin. apply HN in Hi.
  destruct (proj1 (is_level_nth u HU i) Hi) as [L HL]. destruct (level_names u HU i L HL) as (E1 & E2 & E3 & E4 & E5 & E6 & E7 & E8).
  pose proof (frames_count u (List.concat groups) i) as EN. set (n := zlen (u_frames u (List.concat groups) i)) in *.
  assert (Pos : 0 < n) by (unfold n; destruct (u_frames u (List.concat groups) i); [congruence|unfold zlen; cbn [List.length]; lia]).
  destruct (a_good u HU i L HL) as [GG _]. pose proof (PyramidProofs.g_f _ _ _ _ _ _ _ _ _ _ _ _ _ _ GG) as Hf.
  pose proof (prodA_pos u HU i L HL) as PA. rewrite E5 in PA. pose proof (fit_c0 _ _ _ _ _ Hf) as C0. rewrite E8 in C0.
  set (c := d_chunk (at_level i (u_d0 u))) in *. set (p := prodZ (lv_A u i)) in *.
  assert (PP : lv_period u i = c * p) by reflexivity. assert (SP : lv_shard_period u i = c * p) by (unfold lv_shard_period; rewrite H1, PP; lia).
  assert (PC : 0 < c * p) by (apply Z.mul_pos_pos; lia).
  assert (Hd : has_document u i n).
  { unfold has_document. rewrite V, PP, SP. cbn [Z.eqb Pos.eqb]. destruct (Z.eq_dec (n mod (c * p)) 0) as [Z0|Z0]; [right; split; [exact Z0|]|left; exact Z0].
    pose proof (Z.div_mod n (c * p) ltac:(lia)). assert (n / (c * p) <> 0) by (intros X; rewrite X in *; lia). pose proof (Z.div_pos n (c * p) ltac:(lia) PC). nia. }
  assert (Dc : declared u i n = n).
  { unfold declared. rewrite V, PP, SP. cbn [Z.eqb Pos.eqb]. destruct (Z.eqb_spec (n mod (c * p)) 0) as [Z0|Z0]; [|reflexivity]. pose proof (Z.div_mod n (c * p) ltac:(lia)). lia. }
  rewrite EN in Hd. pose proof (opened u groups i HU HG HC Hi Hd) as O. cbv zeta in O. rewrite <- EN, Dc in O. rewrite V in O.
  unfold reads_level. cbv zeta. eexists. rewrite V. split; [exact O|]. split; [cbn [info_of ai_shape]; rewrite shape_of; reflexivity|]. split; [reflexivity|]. split; [exact (fu_bpp _ HU)|].
  intros t mm y x Ht Hm Hy Hx. unfold element. rewrite element_inside by auto. f_equal. apply map_ext_in. intros b Hb. apply in_seq in Hb.
  unfold info_of. cbn [ai_shards ai_chunks ai_bytes ai_blosc]. rewrite V. cbn [Z.eqb Pos.eqb]. rewrite (read3_ext _ _ _ _ _ _ _ _ _ (decodes u HU)).
  pose proof (fit_bpp _ _ _ _ _ (fu_fits _ HU)). cbn [info_of ai_bytes] in Hb.
  pose proof (a_read3 u HU groups HG i L V HL t mm y x (Z.of_nat b)) as R. cbv zeta in R. fold n in R. unfold rows, complete3 in R. fold n in R. rewrite E5, E1, E3, E4, E6, E7, E8, H1 in R. fold c p in R.
  unfold store. rewrite R; auto; [| |lia].
  - rewrite Z.mod_1_r, Z.div_1_r, Z.mul_1_r. cbn [Z.eqb].
    fold n p in Ht. assert (T : t / c < ceil_div n (c * p)).
    { unfold ceil_div in *. apply Z.lt_le_trans with (((n + p - 1) / p + c - 1) / c).
      - assert (t + c <= (n + p - 1) / p + c - 1) by lia. apply Z.lt_le_trans with ((t + c) / c).
        + replace (t + c) with (t + 1 * c) by lia. rewrite Z.div_add by lia. lia.
        + apply Z.div_le_mono; lia.
      - replace ((n + p - 1) / p + c - 1) with ((n + p - 1) / p + (c - 1)) by lia. rewrite <- Z.div_add by lia. rewrite Z.div_div by lia. rewrite (Z.mul_comm p c). apply Z.div_le_mono; [lia|]. lia. }
    f_equal. fold p. replace (d_chunk (at_level i (u_d0 u)) * p) with (c * p) by reflexivity. rewrite Z.min_l by lia. lia.
  - right. rewrite SP, PP. destruct (Z.eq_dec (n mod (c * p)) 0) as [Z0|Z0]; [left; exact Z0|right]. split; [|exact Z0]. destruct Hfin as [Hfin|Hfin]; [exact Hfin|]. congruence.
Qed.

(** Every level that the group document lists can be opened: false while a level has no frame. One frame, three levels. *)
Theorem C62_listed_levels_refuted : exists u groups,
  fair_use u /\ whole_frames u groups /\ real_compressor (u_set u) /\ st_version (u_set u) = 2 /\ succeeds u groups /\
  level_paths 2 (store u groups) (u_root u) = Some ["0"; "1"; "2"] /\
  open_array 2 (store u groups) (u_root u) "0" <> None /\ open_array 2 (store u groups) (u_root u) "1" = None.
Proof.
  exists (ex_comp 2 false true), (ex_groups 1 1). split; [apply ex_comp_fair; auto|]. split; [apply ex_frames_whole; lia|]. split; [reflexivity|]. split; [reflexivity|].
  split; [apply a_succeeds; [apply ex_comp_fair; auto|apply ex_frames_whole; lia]|]. split; [vm_compute; reflexivity|]. split; [vm_compute; discriminate|vm_compute; reflexivity].
Qed.

(** *** The hypotheses can be met *)
(** compressed multiscale stores, 19 frames: level 2 has four *)
Example C62_hypotheses : forall v s3 (groups := ex_groups 1 19) (u := ex_comp v s3 true), v = 2 \/ v = 3 ->
  fair_use u /\ whole_frames u groups /\ real_compressor (u_set u) /\ st_comp (u_set u) <> None /\ st_version (u_set u) = v /\ is_level u 2 /\
  (forall G, level_frames u (List.concat groups) G -> G 2%nat <> [] /\ zlen (G 2%nat) = 4) /\
  d_shard (at_level 2 (u_d0 u)) = 1 /\ (u_bk u = None <-> s3 = false).
Proof.
  intros v s3 groups u V. split; [apply ex_comp_fair; auto|]. split; [apply ex_frames_whole; lia|]. split; [reflexivity|]. split; [discriminate|]. split; [destruct V as [-> | ->]; reflexivity|].
  split; [right; split; [reflexivity|]; exists 2%nat; split; [exact ex_last_level|lia]|]. split.
  { intros G [_ Gn _ _]. assert (X : zlen (G 2%nat) = 4) by (rewrite Gn; vm_compute; reflexivity). split; [|exact X]. intros Y. rewrite Y in X. discriminate X. }
  split; [reflexivity|]. destruct s3; split; intros X; try discriminate X; reflexivity.
Qed.
(** the reader at work: version 3 on the file system, first level, frame 4, first pixel *)
Example C62_at_work : let u := ex_comp 3 false true in let groups := ex_groups 1 8 in
  exists a, open_array 3 (store u groups) (u_root u) "0" = Some a /\ ai_blosc a = true /\ element (store u groups) (u_dec u) (u_root u) "0" a [1; 1; 0; 0] = Some [appended_byte (u_bpp u) (lv_A u 0) 7 (List.concat groups) 1 [1] 0 0 0].
Proof. eexists. split; [vm_compute; reflexivity|]. split; [reflexivity|]. vm_compute. reflexivity. Qed.

Print Assumptions C62_v2_reader.
Print Assumptions C62_v3_reader_partial.
Print Assumptions C62_listed_levels_refuted.
