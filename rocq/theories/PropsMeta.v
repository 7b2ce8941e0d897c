(** C06 (every level), C26 (extents), C32, C33 (finished stores), C34, C35, C36: the documents of a store after a session.
    Vocabulary: MetaSpec.v, StoreSpec.v, JsonSpec.v. *)
Require Import ZArith List Bool String Ascii Lia Zify.
Require Import Verif.Base Verif.Spec Verif.Dim Verif.Limits Verif.Json Verif.World Verif.Writer Verif.Stream Verif.Api
  Verif.SettingsSpec Verif.ValidProofs Verif.SessionSpec Verif.SessionProofs Verif.PyramidSpec Verif.StoreSpec Verif.LevelProofs Verif.LevelsProofs Verif.PyramidProofs Verif.ChunkStore Verif.JsonSpec Verif.JsonProofs Verif.StoreProofs
  Verif.MetaSpec Verif.Examples Verif.ExamplesUse.
Import ListNotations.
Open Scope string_scope.
Open Scope list_scope.
Open Scope Z_scope.

(** *** helpers *)
Lemma ku_ints l : keys_unique (vints l).
Proof. unfold vints. cbn. induction l; cbn; auto. Qed.
Ltac ku := repeat match goal with
  | |- _ /\ _ => split
  | |- NoDup [] => apply NoDup_nil
  | |- NoDup _ => apply NoDup_cons; cbn [map fst In]; [intuition discriminate|]
  | |- True => exact I
  | |- keys_unique (vints _) => apply ku_ints
  end.
Lemma ku_zarray n ds t c : keys_unique (jval (zarray_json n ds t c)).
Proof. unfold zarray_json. cbn [jval map fst snd keys_unique]. rewrite !jval_ints. destruct c; cbn [jval map fst snd keys_unique]; cbn [keys_unique vint]; ku. Qed.
Lemma ku_array n ds t c : keys_unique (jval (array_json n ds t c)).
Proof. unfold array_json. cbn [jval map fst snd keys_unique]. rewrite !jval_ints. destruct c; cbn [jval map fst snd keys_unique]; cbn [keys_unique vint]; ku. Qed.

Lemma two_or_three u : fair_use u -> st_version (u_set u) = 2 \/ st_version (u_set u) = 3.
Proof. intros HU. destruct (fu_doc _ HU) as (H & _). exact H. Qed.

Definition the_json (u : use) (i : nat) (n : Z) : json :=
  (if st_version (u_set u) =? 2 then zarray_json else array_json)
    (ceil_div (declared u i n) (prodZ (lv_A u i))) (lv_dims u i) (u_t u) (option_map blosc_of (st_comp (u_set u))).

Lemma the_document u groups i : fair_use u -> whole_frames u groups -> is_level u i ->
  let n := zlen (List.concat groups) / 2 ^ Z.of_nat i in
  has_document u i n -> array_document u groups i (fun v => v = jval (the_json u i n)).
Proof.
  intros HU HG Hi n Hd. destruct (proj1 (is_level_nth u HU i) Hi) as [L HL]. destruct (level_names u HU i L HL) as (E1 & E2 & E3 & E4 & E5 & E6 & E7 & E8).
  pose proof (frames_count u (List.concat groups) i) as EN. fold n in EN.
  unfold array_document, array_key, has_document, the_json, declared in *. destruct (two_or_three u HU) as [V|V]; rewrite V in *; cbn [Z.eqb Pos.eqb] in *.
  - destruct (a_doc2 u HU groups HG i L V HL) as (c & K & J). { intros X. rewrite X in EN. change (zlen []) with 0 in EN. lia. }
    exists c. eexists. split; [exact K|]. split; [exact J|]. split; [apply ku_zarray|]. rewrite E5, E1, EN. reflexivity.
  - destruct (a_doc3 u HU groups HG i L (if n mod lv_period u i =? 0 then n / lv_shard_period u i * lv_shard_period u i else n) V HL) as (c & K & J).
    { rewrite EN, E6, E7. destruct Hd as [Hd|[Hd Hd']]; [left|right]; destruct (Z.eqb_spec (n mod lv_period u i) 0); auto; congruence. }
    exists c. eexists. split; [exact K|]. split; [exact J|]. split; [apply ku_array|]. rewrite E5, E1. reflexivity.
Qed.

Lemma u_t_name u : fair_use u -> u_t u = if st_version (u_set u) =? 2 then v2_name (kind_of (st_dtype (u_set u))) (u_bpp u) else v3_name (kind_of (st_dtype (u_set u))) (u_bpp u).
Proof.
  intros HU. destruct (fu_doc _ HU) as (_ & _ & T & _). pose proof (fu_bpp _ HU) as B. unfold u_t.
  set (bpp := u_bpp u) in *. set (dt := st_dtype (u_set u)) in *. clearbody bpp dt.
  assert (H : dt = 0 \/ dt = 1 \/ dt = 2 \/ dt = 3 \/ dt = 4 \/ dt = 5 \/ dt = 6 \/ dt = 7 \/ dt = 8 \/ dt = 9) by lia.
  destruct (two_or_three u HU) as [V|V]; rewrite V; decompose [or] H; subst dt; vm_compute in B; injection B as <-; vm_compute; reflexivity.
Qed.

(** *** The array document of every level says what the level is *)
Theorem C06_C26_array_documents : forall u groups i,
  fair_use u -> whole_frames u groups -> is_level u i ->
  let n := zlen (List.concat groups) / 2 ^ Z.of_nat i in
  has_document u i n ->
  array_document u groups i (fun v => exists s0,
    says_array (st_version (u_set u)) (s0 :: map d_array (lv_inner u i)) (map d_chunk (lv_dims u i)) (map d_shard (lv_dims u i))
      ((if st_version (u_set u) =? 2 then v2_name else v3_name) (kind_of (st_dtype (u_set u))) (u_bpp u)) v /\
    (s0 - 1) * prodZ (lv_A u i) < declared u i n <= s0 * prodZ (lv_A u i)).
Proof.
  intros u groups i HU HG Hi n Hd. destruct (the_document u groups i HU HG Hi Hd) as (c & v & K & J & KU & ->). exists c. eexists. split; [exact K|]. split; [exact J|]. split; [exact KU|].
  exists (ceil_div (declared u i n) (prodZ (lv_A u i))). split.
  - fold n. unfold the_json, says_array. pose proof (u_t_name u HU) as EN. unfold lv_dims, lv_inner, u_dims. destruct (two_or_three u HU) as [V|V]; rewrite V in *; cbn [Z.eqb Pos.eqb] in *; rewrite <- EN.
    + unfold zarray_json. cbn [jval map fst snd tl]. cbn [field lookup String.eqb Ascii.eqb Bool.eqb]. rewrite !jval_ints. repeat split.
    + unfold array_json. cbn [jval map fst snd tl]. cbn [field lookup String.eqb Ascii.eqb Bool.eqb]. rewrite !jval_ints. repeat split.
      * eexists. repeat split.
      * eexists. eexists. repeat split.
  - destruct (proj1 (is_level_nth u HU i) Hi) as [L HL]. destruct (level_names u HU i L HL) as (_ & _ & _ & _ & E5 & _). pose proof (prodA_pos u HU i L HL) as PA. rewrite E5 in PA.
    unfold ceil_div. set (m := declared u i n). set (p := prodZ (lv_A u i)) in *. clearbody m p. pose proof (Z.div_mod (m + p - 1) p). pose proof (Z.mod_pos_bound (m + p - 1) p). nia.
Qed.

(** *** C33: after the session every array document is exactly one JSON text. The file is rewritten in place, so leftover
    bytes of an earlier document would make [json_of] fail: [array_document] reads the whole file. *)
Theorem C33_finished_documents_partial : forall u groups i,
  fair_use u -> whole_frames u groups -> is_level u i ->
  has_document u i (zlen (List.concat groups) / 2 ^ Z.of_nat i) ->
  array_document u groups i (fun _ => True).
Proof.
  intros u groups i HU HG Hi Hd. destruct (the_document u groups i HU HG Hi Hd) as (c & v & K & J & KU & _). exists c, v. auto.
Qed.

(** *** C34 *)
Definition type_field (version : Z) : string := if version =? 2 then "dtype" else "data_type".
Theorem C34_type_name : forall u groups i,
  fair_use u -> whole_frames u groups -> is_level u i ->
  has_document u i (zlen (List.concat groups) / 2 ^ Z.of_nat i) ->
  array_document u groups i (fun v => field (type_field (st_version (u_set u))) v =
    Some (VStr ((if st_version (u_set u) =? 2 then v2_name else v3_name) (kind_of (st_dtype (u_set u))) (u_bpp u)))).
Proof.
  intros u groups i HU HG Hi Hd. destruct (C06_C26_array_documents u groups i HU HG Hi Hd) as (c & v & K & J & KU & s0 & (_ & _ & S) & _). exists c, v. split; [auto|]. split; [auto|]. split; [auto|].
  unfold type_field. destruct (two_or_three u HU) as [V|V]; rewrite V in *; cbn [Z.eqb Pos.eqb] in *; tauto.
Qed.
(** Stores whose documents have the same type name were written with the same data type. *)
Theorem C34_distinct : forall u u' groups groups' i i' v v' name,
  fair_use u -> fair_use u' -> whole_frames u groups -> whole_frames u' groups' -> is_level u i -> is_level u' i' ->
  has_document u i (zlen (List.concat groups) / 2 ^ Z.of_nat i) -> has_document u' i' (zlen (List.concat groups') / 2 ^ Z.of_nat i') ->
  st_version (u_set u) = st_version (u_set u') ->
  (exists c, key u groups (array_key u i) = Some c /\ json_of c = Some v) ->
  (exists c, key u' groups' (array_key u' i') = Some c /\ json_of c = Some v') ->
  field (type_field (st_version (u_set u))) v = Some (VStr name) ->
  field (type_field (st_version (u_set u'))) v' = Some (VStr name) ->
  st_dtype (u_set u) = st_dtype (u_set u').
Proof.
  intros u u' groups groups' i i' v v' name HU HU' HG HG' Hi Hi' Hd Hd' EV (c & K & J) (c' & K' & J') N N'.
  destruct (C34_type_name u groups i HU HG Hi Hd) as (d & w & A & B & _ & C). destruct (C34_type_name u' groups' i' HU' HG' Hi' Hd') as (d' & w' & A' & B' & _ & C').
  rewrite K in A. injection A as <-. rewrite J in B. injection B as <-. rewrite K' in A'. injection A' as <-. rewrite J' in B'. injection B' as <-.
  rewrite N in C. rewrite N' in C'. rewrite C in C'. clear - C' EV HU HU'. rewrite <- EV in C'.
  destruct (fu_doc _ HU) as (_ & _ & T & _). pose proof (fu_bpp _ HU) as B. destruct (fu_doc _ HU') as (_ & _ & T' & _). pose proof (fu_bpp _ HU') as B'.
  set (bpp := u_bpp u) in *. set (dt := st_dtype (u_set u)) in *. clearbody bpp dt. set (bpp' := u_bpp u') in *. set (dt' := st_dtype (u_set u')) in *. clearbody bpp' dt'.
  assert (H : dt = 0 \/ dt = 1 \/ dt = 2 \/ dt = 3 \/ dt = 4 \/ dt = 5 \/ dt = 6 \/ dt = 7 \/ dt = 8 \/ dt = 9) by lia.
  assert (H' : dt' = 0 \/ dt' = 1 \/ dt' = 2 \/ dt' = 3 \/ dt' = 4 \/ dt' = 5 \/ dt' = 6 \/ dt' = 7 \/ dt' = 8 \/ dt' = 9) by lia.
  destruct (two_or_three u HU) as [V|V]; rewrite V in C'; decompose [or] H; subst dt; vm_compute in B; injection B as <-; decompose [or] H'; subst dt'; vm_compute in B'; injection B' as <-; vm_compute in C'; first [reflexivity|discriminate C'].
Qed.

(** *** C32 *)
(** No compression settings: the documents say so (and C07_C31_v2_chunks / C07_C11_C31_v3_shards say what is stored). Settings with
    compressor Blosc: the documents give the codec, level and shuffle mode asked for.
    Full statement: also for compressor None, where the documents should say that there is no compressor: C32_refuted. *)
Theorem C32_documents_partial : forall u groups i,
  fair_use u -> whole_frames u groups -> is_level u i ->
  has_document u i (zlen (List.concat groups) / 2 ^ Z.of_nat i) ->
  array_document u groups i (fun v =>
    match st_comp (u_set u) with
    | None => field "compressor" v = Some VNull
    | Some c => cs_compressor c = 1 -> says_blosc (st_version (u_set u)) c v
    end).
Proof.
  intros u groups i HU HG Hi Hd. destruct (the_document u groups i HU HG Hi Hd) as (c & v & K & J & KU & ->). exists c. eexists. split; [exact K|]. split; [exact J|]. split; [exact KU|].
  unfold the_json. destruct (st_comp (u_set u)) as [cs|] eqn:CS.
  - intros C1. destruct (fu_doc _ HU) as (_ & _ & _ & C & _). destruct (C cs CS) as (_ & R & N & _). specialize (N C1).
    assert (NM : codec_text (cs_codec cs) = Some (codec_name (cs_codec cs))).
    { unfold codec_text, codec_name. assert (cs_codec cs = 1 \/ cs_codec cs = 2) as [->| ->] by lia; reflexivity. }
    unfold says_blosc. exists (codec_name (cs_codec cs)).
    destruct (two_or_three u HU) as [V|V]; rewrite V; cbn [Z.eqb Pos.eqb option_map].
    + unfold zarray_json. cbn [jval map fst snd]. cbn [field lookup String.eqb Ascii.eqb Bool.eqb blosc_of b_codec b_clevel b_shuffle]. eexists. split; [exact NM|]. split; [reflexivity|]. split; [reflexivity|].
      eexists. split; [reflexivity|]. repeat split.
    + unfold array_json. cbn [jval map fst snd]. cbn [field lookup String.eqb Ascii.eqb Bool.eqb blosc_of b_codec b_clevel b_shuffle]. eexists. split; [exact NM|]. split; [reflexivity|]. split; [reflexivity|].
      eexists. split; [reflexivity|]. repeat split.
  - destruct (two_or_three u HU) as [V|V]; rewrite V; reflexivity.
Qed.

(** Settings with compressor None (and all other fields 0) are accepted, and everything reports success; the document claims a Blosc
    codec that does not exist, and the chunks are stored raw. The machine's compressor refuses the unknown codec, as Blosc does. *)
Definition env_blosc : env := {|
  e_file0 := fun _ => None; e_dir0 := fun _ => false; e_obj0 := fun _ _ => None;
  e_fault := fun _ => false; e_s3 := fun _ => true; e_conns := 2%nat;
  e_compress := fun b _ d => if (String.eqb (b_codec b) "lz4" || String.eqb (b_codec b) "zstd")%bool then Some (7 :: d) else None;
  e_writable := fun _ => true;
  e_parse := fun s => if String.eqb s "{}" then Some "{}" else None; e_stat := fun _ _ => true |}.
Definition none_settings : settings :=
  mksettings (Some " out ") (Some "{}") None (Some (mkcompset 0 0 0 0)) (Some (map ex_udim ex_dims)) false dt_uint8 2.
Theorem C32_refuted : exists E w st calls w' outs,
  typed st /\ documented E w st /\ (forall k, e_fault E k = false) /\
  (exists c, st_comp st = Some c /\ cs_compressor c = 0) /\
  session E st calls w = (w', Ok (Some (outs, true))) /\ Forall (fun o => fst o = st_success) outs /\
  (exists d v o, file_of E (w_trace w') "out/0/.zarray" = Some d /\ json_of d = Some v /\
     field "compressor" v = Some o /\ field "cname" o = Some (VStr "unrecognized codec")) /\
  exists raw, file_of E (w_trace w') "out/0/0/0/0/0" = Some raw /\ zlen raw = prodZ (map d_chunk ex_dims).
Proof.
  exists env_blosc, ex_world, none_settings, [List.concat (ex_frames 1 2)]. eexists. eexists.
  assert (T : typed none_settings).
  { split; [discriminate|]. split; [discriminate|]. split.
    - intros c H. injection H as <-. cbn. lia.
    - intros l d Hl Hin. injection Hl as <-. cbn in Hin. decompose [or] Hin; try contradiction; subst d; vm_compute; discriminate. }
  assert (P : strings_present none_settings).
  { split; [intros x H; discriminate|]. intros l d Hl Hin. injection Hl as <-. cbn in Hin. decompose [or] Hin; try contradiction; subst d; discriminate. }
  split; [exact T|]. split.
  { destruct (validate_settings_spec env_blosc ex_world none_settings T P) as (b & R & Hb). apply Hb. vm_compute in R. injection R as <-. reflexivity. }
  split; [reflexivity|]. split; [eexists; split; reflexivity|]. split; [vm_compute; reflexivity|]. split; [repeat constructor|]. split.
  - eexists. eexists. eexists. split; [vm_compute; reflexivity|]. split; [vm_compute; reflexivity|]. split; reflexivity.
  - eexists. split; vm_compute; reflexivity.
Qed.

(** *** C36 *)
Lemma ku_arr l : Forall keys_unique l -> keys_unique (VArr l).
Proof. cbn. induction 1; auto. Qed.
Lemma ku_axis b d : keys_unique (jval (axis_json b d)).
Proof. destruct b; cbn [axis_json jval map fst snd app keys_unique]; ku. Qed.
Lemma ku_dataset i sc : keys_unique (jval (dataset_json i sc)).
Proof.
  unfold dataset_json. cbn [jval map fst snd]. assert (X : keys_unique (VArr (map jval (map JDbl sc)))).
  { apply ku_arr. rewrite map_map. apply Forall_map, Forall_forall. intros; exact I. }
  cbn [keys_unique] in X |- *. ku. exact X.
Qed.
Lemma ku_multi ds n : keys_unique (jval (multiscale_json ds n)).
Proof.
  unfold multiscale_json.
  assert (A : keys_unique (jval (axes_json ds))).
  { unfold axes_json. cbn [jval]. apply ku_arr. rewrite map_app. apply Forall_app. split; rewrite map_map; apply Forall_map, Forall_forall; intros; apply ku_axis. }
  set (dsets := dataset_json 0 _ :: _).
  assert (B : keys_unique (jval (JArr dsets))).
  { cbn [jval]. apply ku_arr. unfold dsets. cbn [map]. constructor; [apply ku_dataset|]. rewrite map_map. apply Forall_map, Forall_forall. intros; apply ku_dataset. }
  clearbody dsets. set (ax := axes_json ds) in *. clearbody ax.
  destruct (Nat.ltb 1 n); cbn [app jval map fst snd]; apply ku_arr; (constructor; [|constructor]); cbn [keys_unique map fst]; cbn [jval] in B; ku; auto.
Qed.

(** the documents of the group, v2 and v3, are JSON texts *)
Theorem C36_group_documents : forall u groups,
  fair_use u -> whole_frames u groups ->
  Forall (fun k => document u groups k (fun _ => True))
    (if st_version (u_set u) =? 2 then [".zattrs"; ".zgroup"] else ["zarr.json"; "meta/root.group.json"]).
Proof.
  intros u groups HU HG. destruct (two_or_three u HU) as [V|V]; rewrite V; cbn [Z.eqb Pos.eqb]; apply Forall_cons; [|apply Forall_cons; [|constructor]| |apply Forall_cons; [|constructor]].
  - destruct (a_zattrs u HU groups HG V) as (c & K & J). exists c. eexists. split; [exact K|]. split; [exact J|]. split; [|exact I]. cbn [keys_unique map fst]. ku. apply ku_multi.
  - destruct (a_zgroup u HU groups HG V) as (c & K & J). exists c. eexists. split; [exact K|]. split; [exact J|]. split; [|exact I]. cbn [keys_unique map fst vint]. ku.
  - destruct (a_zarr3 u HU groups HG V) as (c & K & J). exists c. eexists. split; [exact K|]. split; [exact J|]. split; [|exact I]. cbn [keys_unique map fst vint]. ku.
  - destruct (a_group3 u HU groups HG V) as (c & K & J). exists c. eexists. split; [exact K|]. split; [exact J|]. split; [|exact I]. cbn [keys_unique map fst vint]. ku. apply ku_multi.
Qed.
(** the custom metadata: the stored text is the library's rendering [t] of the JSON value given (without surrounding white space) *)
Definition custom_key (u : use) : string := if st_version (u_set u) =? 2 then "acquire.json" else "meta/acquire.json".
Theorem C36_custom_metadata : forall u groups m m' t,
  fair_use u -> whole_frames u groups ->
  st_meta (u_set u) = Some m -> trimmed_to m m' -> m' <> "" -> e_parse (u_env u) m' = Some t -> t <> "" ->
  key u groups (custom_key u) = Some (bytes_of_string t).
Proof.
  intros u groups m m' t HU HG HM HT HN HP HE.
  assert (EC : u_custom u = m'). { unfold u_custom. rewrite HM. apply (trimmed_unique m); auto. apply trim_spec. }
  pose proof (a_external u HU groups HG) as X. rewrite EC in X. cbv zeta in X. specialize (X (or_introl HN)). rewrite HP in X. specialize (X ltac:(congruence)).
  destruct (String.eqb_spec m' ""); [congruence|]. unfold custom_text in X. rewrite HP in X. unfold custom_key.
  destruct (two_or_three u HU) as [V|V]; rewrite V in *; exact X.
Qed.
Theorem C36_no_custom_metadata : forall u groups t,
  fair_use u -> whole_frames u groups ->
  st_meta (u_set u) = None -> e_parse (u_env u) "{}" = Some t -> t <> "" ->
  key u groups (custom_key u) = Some (bytes_of_string t).
Proof.
  intros u groups t HU HG HM HP HE.
  assert (EC : u_custom u = "{}"). { unfold u_custom. rewrite HM. reflexivity. }
  pose proof (a_external u HU groups HG) as X. rewrite EC in X. cbv zeta in X. specialize (X ltac:(left; discriminate)). rewrite HP in X. specialize (X ltac:(congruence)).
  unfold custom_text in X. rewrite HP in X. unfold custom_key. destruct (two_or_three u HU) as [V|V]; rewrite V in *; exact X.
Qed.
(** Full statement: every metadata file is a JSON text. False: a v2 store on the file system has an empty file 0/.zattrs. *)
Theorem C36_refuted : exists u groups,
  fair_use u /\ whole_frames u groups /\ succeeds u groups /\ key u groups "0/.zattrs" = Some [] /\ json_of [] = None.
Proof.
  exists (ex_plain 2 false), (ex_groups 2 9). split; [apply ex_plain_fair; auto|]. split; [apply ex_frames_whole; lia|].
  split; [apply a_succeeds; [apply ex_plain_fair; auto|apply ex_frames_whole; lia]|]. split; vm_compute; reflexivity.
Qed.
(** blank custom metadata leaves an empty file *)
Theorem C36_blank_custom_metadata : forall u groups m,
  fair_use u -> whole_frames u groups -> st_meta (u_set u) = Some m -> trimmed_to m "" -> u_bk u = None -> e_parse (u_env u) "" <> Some "" ->
  key u groups (custom_key u) = Some [].
Proof.
  intros u groups m HU HG HM HT HB HP.
  assert (EC : u_custom u = ""). { unfold u_custom. rewrite HM. apply (trimmed_unique m); auto. apply trim_spec. }
  pose proof (a_external u HU groups HG) as X. rewrite EC in X. cbv zeta in X. specialize (X (or_intror HB) HP).
  unfold custom_key. destruct (two_or_three u HU) as [V|V]; rewrite V in *; exact X.
Qed.

(** *** C35 *)
(** The number of the last level *)
Definition levels_to (u : use) (N : nat) : Prop := forall i, is_level u i <-> (i <= N)%nat.
Definition the_scale (u : use) (i : nat) : list Z :=
  if Nat.eqb i 0 then map (fun _ => 1) (u_dims u)
  else 2 ^ Z.of_nat i :: map (fun _ => 1) (u_mids u) ++ [2 ^ Z.of_nat i; 2 ^ Z.of_nat i].

Lemma levels_count u : fair_use u -> levels_to u (List.length (u_Lr u)).
Proof.
  intros HU i. rewrite (is_level_nth u HU). split.
  - intros [L HL]. assert (X : nth_error (u_L0 u :: u_Lr u) i <> None) by congruence. apply nth_error_Some in X. cbn [List.length] in X. lia.
  - intros H. apply (level_exists u). exact H.
Qed.
Lemma u_types u d : fair_use u -> In d (u_dims u) -> 0 <= d_type d <= 3.
Proof.
  intros HU Hin. destruct (fu_dims _ HU) as (l & Hl & M). destruct (fu_doc _ HU) as (_ & _ & _ & _ & _ & (l' & init & y & x & Hl' & _ & _ & _ & _ & D)).
  rewrite Hl in Hl'. injection Hl' as <-. rewrite <- M in Hin. apply in_map_iff in Hin as (e & <- & He). apply In_nth_error in He as [i Hi]. destruct (D i e Hi) as (_ & T & _). exact T.
Qed.
Lemma says_multi u : fair_use u -> says_multiscales u (List.length (u_Lr u)) (the_scale u) (jval (u_multi_json u)).
Proof.
  intros HU. unfold u_multi_json. cbn [List.length]. set (N := List.length (u_Lr u)). clearbody N. unfold multiscale_json.
  rewrite Nat.sub_succ, Nat.sub_0_r.
  assert (D : forall i sc, jval (dataset_json (Z.of_nat i) sc) = dataset i sc).
  { intros i sc. unfold dataset_json, dataset. cbn [jval map fst snd]. rewrite map_map. reflexivity. }
  assert (DS : map jval (dataset_json 0 (map (fun _ => 1) (u_dims u)) :: map (fun i => let p := 2 ^ Z.of_nat i in dataset_json (Z.of_nat i) (p :: repeat 1 (List.length (u_dims u) - 3) ++ [p; p])) (seq 1 N))
          = map (fun i => dataset i (the_scale u i)) (seq 0 (S N))).
  { cbn [seq map]. f_equal; [apply (D 0%nat)|]. rewrite map_map. apply map_ext_in. intros i Hi. apply in_seq in Hi. cbv zeta. rewrite D. f_equal. unfold the_scale. destruct (Nat.eqb_spec i 0); [lia|].
    f_equal. f_equal. unfold u_dims. cbn [List.length]. rewrite app_length. cbn [List.length]. replace (S (List.length (u_mids u) + 2) - 3)%nat with (List.length (u_mids u)) by lia.
    clear. induction (u_mids u); cbn; congruence. }
  set (dsets := dataset_json 0 _ :: _) in *.
  exists (jval (JObj ([("axes", axes_json (u_dims u)); ("datasets", JArr dsets)] ++
    (if Nat.ltb 1 (S N) then
                     [ ("metadata", JObj [ ("args", JStr "[2]");
                                           ("description", JStr "The fields in the metadata describe how to reproduce this multiscaling in scikit-image. The method and its parameters are given here.");
                                           ("kwargs", JArr [ JStr "cval"; JInt 0 ]);
                                           ("method", JStr "skimage.transform.downscale_local_mean");
                                           ("version", JStr "0.21.0") ]);
                       ("type", JStr "local_mean") ] else []) ++ [("version", JStr "0.4")]))).
  exists (map jval (map (axis_json false) (u_d0 u :: u_mids u) ++ map (axis_json true) [u_dy u; u_dx u])).
  split; [reflexivity|]. split; [destruct (Nat.ltb 1 (S N)); reflexivity|]. split.
  { rewrite <- DS. destruct (Nat.ltb 1 (S N)); reflexivity. }
  split.
  { assert (A : jval (axes_json (u_dims u)) = VArr (map jval (map (axis_json false) (u_d0 u :: u_mids u) ++ map (axis_json true) [u_dy u; u_dx u]))).
    { unfold axes_json, u_dims. cbn [jval]. do 2 f_equal. replace (List.length (u_d0 u :: u_mids u ++ [u_dy u; u_dx u]) - 2)%nat with (List.length (u_d0 u :: u_mids u)) by (cbn [List.length]; rewrite app_length; cbn [List.length]; lia).
      rewrite app_comm_cons, firstn_app, skipn_app, Nat.sub_diag, firstn_all, skipn_all. cbn [firstn skipn app]. rewrite app_nil_r. reflexivity. }
    rewrite <- A. destruct (Nat.ltb 1 (S N)); reflexivity. }
  assert (AX : forall b d, In d (u_dims u) -> says_axis d b (jval (axis_json b d))).
  { intros b d Hd. unfold says_axis. split; [destruct b; reflexivity|]. split; [|destruct b; reflexivity].
    assert (T : type_name (d_type d) = if d_type d =? ty_space then "space" else if d_type d =? ty_channel then "channel" else if d_type d =? ty_time then "time" else "other").
    { pose proof (u_types u d HU Hd) as R. set (t := d_type d) in *. clearbody t. assert (t = 0 \/ t = 1 \/ t = 2 \/ t = 3) as [->|[->|[->| ->]]] by lia; reflexivity. }
    destruct b; cbn [axis_json jval map fst snd app field lookup String.eqb Ascii.eqb Bool.eqb]; rewrite T; reflexivity. }
  unfold u_dims in AX. rewrite app_comm_cons in AX. rewrite map_app. apply Forall2_app.
  - assert (AX' : forall d, In d (u_d0 u :: u_mids u) -> says_axis d false (jval (axis_json false d))) by (intros; apply AX, in_or_app; auto). clear AX.
    rewrite map_map. clear - AX'. set (l := u_d0 u :: u_mids u) in *. clearbody l. induction l; cbn [map]; constructor; [apply AX'; left; reflexivity|]. apply IHl. intros d Hd. apply AX'. right. exact Hd.
  - repeat constructor; apply AX; apply in_or_app; right; cbn; auto.
Qed.

(** The group document lists one dataset for each level that is stored, with path the level number; append dimension, rows and columns of level i
    have the factor 2^i, middle dimensions 1. *)
Theorem C35_datasets : forall u groups,
  fair_use u -> whole_frames u groups ->
  exists N, levels_to u N /\
    document u groups (if st_version (u_set u) =? 2 then ".zattrs" else "meta/root.group.json") (fun v =>
      exists m, (if st_version (u_set u) =? 2 then Some v else field "attributes" v) = Some (VObj [("multiscales", m)]) /\
        says_multiscales u N (the_scale u) m).
Proof.
  intros u groups HU HG. exists (List.length (u_Lr u)). split; [apply levels_count; exact HU|].
  destruct (two_or_three u HU) as [V|V]; rewrite V; cbn [Z.eqb Pos.eqb].
  - destruct (a_zattrs u HU groups HG V) as (c & K & J). exists c. eexists. split; [exact K|]. split; [exact J|]. split; [cbn [keys_unique map fst]; ku; apply ku_multi|].
    eexists. split; [reflexivity|]. apply says_multi; exact HU.
  - destruct (a_group3 u HU groups HG V) as (c & K & J). exists c. eexists. split; [exact K|]. split; [exact J|]. split; [cbn [keys_unique map fst vint]; ku; apply ku_multi|].
    eexists. split; [reflexivity|]. apply says_multi; exact HU.
Qed.

(** [f] is the factor by which an extent [a] was divided, up to rounding up, to get [a'] *)
Definition ratio (a a' f : Z) : Prop := a' = ceil_div a f.
(** The factors are the ratios of the declared extents where the middle dimensions are channels. The first extent is the number of
    append positions in the array documents (C06_C26_array_documents): level i has n / 2^i frames.
    Full statement: for every type of middle dimension; false: C35_refuted. *)
Theorem C35_factors_partial : forall u i,
  fair_use u -> is_level u i -> Forall (fun d => d_type d = ty_channel) (u_mids u) ->
  Forall2 (fun df a' => ratio (d_array (fst df)) a' (snd df))
    (combine (u_mids u ++ [u_dy u; u_dx u]) (tl (the_scale u i))) (map d_array (lv_inner u i)).
Proof.
  intros u i HU Hi HC.
  assert (Y : d_type (u_dy u) = ty_space /\ d_type (u_dx u) = ty_space /\ 0 < d_array (u_dy u) /\ 0 < d_array (u_dx u)).
  { destruct (fu_dims _ HU) as (l & Hl & M). destruct (fu_doc _ HU) as (_ & _ & _ & _ & _ & (l' & init & y & x & Hl' & El & _ & Ty & Tx & D)).
    rewrite Hl in Hl'. injection Hl' as <-. rewrite El, map_app in M. unfold u_dims in M. rewrite app_comm_cons in M. cbn [map] in M.
    change ([dim_of y; dim_of x]) with ([dim_of y] ++ [dim_of x]) in M. change ([u_dy u; u_dx u]) with ([u_dy u] ++ [u_dx u]) in M. rewrite !app_assoc in M.
    apply app_inj_tail in M as [M Mx]. apply app_inj_tail in M as [_ My]. rewrite <- My, <- Mx. split; [exact Ty|]. split; [exact Tx|].
    pose proof (fu_fits _ HU) as [? ? q ? ? ? ? ?]. apply Forall_app in q as [_ q]. inversion q as [|? ? (Q1 & _) q']; subst. inversion q' as [|? ? (Q2 & _) _]; subst. rewrite My, Mx. split; [exact Q1|exact Q2]. }
  destruct Y as (Y1 & Y2 & Y3 & Y4). unfold lv_inner, the_scale. rewrite map_map, map_app. cbn [map].
  assert (LV : forall d, d_type d = ty_space -> 0 < d_array d -> d_array (at_level i d) = ceil_div (d_array d) (if Nat.eqb i 0 then 1 else 2 ^ Z.of_nat i)).
  { intros d T P. unfold at_level. rewrite T. destruct (Nat.eqb_spec i 0); cbn [orb]; [unfold ceil_div; rewrite Z.div_1_r; lia|]. change (ty_space =? ty_channel) with false. cbv iota. destruct (Z.eqb_spec (d_array d) 0); [lia|]. reflexivity. }
  assert (X : forall f, (if Nat.eqb i 0 then map (fun _ => 1) (u_dims u) else 2 ^ Z.of_nat i :: map (fun _ => 1) (u_mids u) ++ [2 ^ Z.of_nat i; 2 ^ Z.of_nat i]) = f ->
    tl f = map (fun _ => 1) (u_mids u) ++ [if Nat.eqb i 0 then 1 else 2 ^ Z.of_nat i; if Nat.eqb i 0 then 1 else 2 ^ Z.of_nat i]).
  { intros f <-. destruct (Nat.eqb i 0); [|reflexivity]. unfold u_dims. cbn [map tl]. rewrite map_app. reflexivity. }
  rewrite (X _ eq_refl). clear X.
  assert (Z1 : forall l : list dim, Forall (fun d => d_type d = ty_channel) l -> forall s t, combine (l ++ s) (map (fun _ => 1) l ++ t) = map (fun d => (d, 1)) l ++ combine s t).
  { intros l. induction l as [|a l IH]; intros H s t; cbn; [reflexivity|]. inversion H; subst. rewrite IH; auto. }
  rewrite Z1 by auto. apply Forall2_app.
  - clear - HC. induction HC; cbn [map]; constructor; auto. unfold ratio. cbn [fst snd]. unfold at_level. rewrite H. change (ty_channel =? ty_channel) with true. rewrite orb_true_r. unfold ceil_div. rewrite Z.div_1_r. lia.
  - cbn [combine]. repeat constructor; unfold ratio; cbn [fst snd]; auto.
Qed.

(** A middle dimension of another type is downsampled (3 slices, then 2), but its factor is 1 *)
Theorem C35_refuted : exists u groups,
  fair_use u /\ whole_frames u groups /\ succeeds u groups /\ is_level u 1 /\
  (exists d, In d (u_mids u) /\ d_array d = 3 /\ d_array (at_level 1 d) = 2) /\ nth 1 (the_scale u 1) 0 = 1 /\
  array_document u groups 1 (fun v => field "shape" v = Some (vints [3; 2; 3; 4])).
Proof.
  exists (ex_gen ty_space false 2 false None true dt_uint8 1 ex_d0), (ex_groups 1 12).
  assert (HU : fair_use (ex_gen ty_space false 2 false None true dt_uint8 1 ex_d0)) by (apply ex_gen_fair; [vm_compute; split; discriminate|discriminate|left; reflexivity|left; reflexivity|left; reflexivity|left; reflexivity]).
  assert (HG : whole_frames (ex_gen ty_space false 2 false None true dt_uint8 1 ex_d0) (ex_groups 1 12)) by (apply gen_frames_whole; lia).
  assert (L1 : is_level (ex_gen ty_space false 2 false None true dt_uint8 1 ex_d0) 1).
  { apply is_level_nth; [exact HU|]. eexists. vm_compute. reflexivity. }
  split; [exact HU|]. split; [exact HG|]. split; [apply a_succeeds; auto|]. split; [exact L1|]. split; [eexists; split; [left; reflexivity|split; reflexivity]|]. split; [reflexivity|].
  destruct (C06_C26_array_documents _ _ 1%nat HU HG L1) as (c & v & K & J & KU & s0 & (S1 & _) & R).
  { vm_compute. reflexivity. }
  exists c, v. split; [exact K|]. split; [exact J|]. split; [exact KU|]. rewrite S1. f_equal.
  assert (s0 = 3). { revert R. change (prodZ (lv_A (ex_gen ty_space false 2 false None true dt_uint8 1 ex_d0) 1)) with 2. change (declared (ex_gen ty_space false 2 false None true dt_uint8 1 ex_d0) 1 (zlen (List.concat (ex_groups 1 12)) / 2 ^ Z.of_nat 1)) with 6. lia. }
  subst s0. reflexivity.
Qed.

(** *** The hypotheses can be met: three levels, 9 frames, compressed, v2 and v3 *)
Example meta_hypotheses : forall version, version = 2 \/ version = 3 ->
  let u := ex_comp version false true in let groups := ex_groups 1 9 in
  fair_use u /\ whole_frames u groups /\ Forall (fun d => d_type d = ty_channel) (u_mids u) /\
  forall i, (i <= 1)%nat -> is_level u i /\ has_document u i (zlen (List.concat groups) / 2 ^ Z.of_nat i).
Proof.
  intros version HV. cbv zeta. split; [apply ex_comp_fair; auto|]. split; [apply ex_frames_whole; lia|]. split; [repeat constructor|].
  intros i Hi. split.
  - apply is_level_nth; [apply ex_comp_fair; auto|]. assert (i = 0 \/ i = 1)%nat as [->| ->] by lia; destruct HV as [->| ->]; eexists; vm_compute; reflexivity.
  - assert (i = 0 \/ i = 1)%nat as [->| ->] by lia; destruct HV as [->| ->]; vm_compute; first [reflexivity|left; discriminate].
Qed.
Example C36_custom_hypotheses : let u := ex_comp 3 true true in
  st_meta (u_set u) = Some "{}" /\ trimmed_to "{}" "{}" /\ e_parse (u_env u) "{}" = Some "{}".
Proof. split; [reflexivity|]. split; [exact (trim_at "{}")|reflexivity]. Qed.

Print Assumptions C06_C26_array_documents.
Print Assumptions C33_finished_documents_partial.
Print Assumptions C34_type_name.
Print Assumptions C34_distinct.
Print Assumptions C32_documents_partial.
Print Assumptions C32_refuted.
Print Assumptions C36_group_documents.
Print Assumptions C36_custom_metadata.
Print Assumptions C36_no_custom_metadata.
Print Assumptions C36_refuted.
Print Assumptions C36_blank_custom_metadata.
Print Assumptions C35_datasets.
Print Assumptions C35_factors_partial.
Print Assumptions C35_refuted.
