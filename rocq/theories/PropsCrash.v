(** C37, C33: what is found on disk if the process dies at any moment. Vocabulary: CrashSpec.v, StoreSpec.v, MetaSpec.v, JsonSpec.v. *)
Require Import ZArith List Bool String Ascii Lia Zify.
Require Import Verif.Base Verif.Spec Verif.Dim Verif.Limits Verif.Json Verif.World Verif.Writer Verif.Stream Verif.Api
  Verif.SettingsSpec Verif.SessionSpec Verif.PyramidSpec Verif.StoreSpec Verif.ChunkStore Verif.JsonSpec Verif.JsonProofs Verif.StoreProofs Verif.LevelsProofs
  Verif.PyramidProofs Verif.SessionProofs Verif.MetaSpec Verif.CrashSpec Verif.CrashStore Verif.PropsMeta Verif.PropsChunks Verif.Examples Verif.ExamplesUse.
Import ListNotations.
Open Scope string_scope.
Open Scope list_scope.
Open Scope Z_scope.

(** path of the array document of level [i] *)
Definition array_path (u : use) (i : nat) : string := (u_root u ++ "/" ++ array_key u i)%string.
(** an array document of level [i] that declares [s0] rows, the fewest that hold [k] frames *)
Definition declares (u : use) (i : nat) (k s0 : Z) (c : list Z) : Prop :=
  exists v, json_of c = Some v /\ keys_unique v /\
    says_array (st_version (u_set u)) (s0 :: map d_array (lv_inner u i)) (map d_chunk (lv_dims u i)) (map d_shard (lv_dims u i))
      ((if st_version (u_set u) =? 2 then v2_name else v3_name) (kind_of (st_dtype (u_set u))) (u_bpp u)) v /\
    (s0 - 1) * prodZ (lv_A u i) < k <= s0 * prodZ (lv_A u i).

Lemma doc_declares u i k c : fair_use u -> is_level u i -> json_of c = Some (jval (array_doc u i k)) -> declares u i k (ceil_div k (prodZ (lv_A u i))) c.
Proof.
  intros HU Hi J. eexists. split; [exact J|]. split; [unfold array_doc; destruct (two_or_three u HU) as [V|V]; rewrite V; [apply ku_zarray|apply ku_array]|]. split.
  - unfold array_doc, says_array. pose proof (u_t_name u HU) as EN. unfold lv_dims, lv_inner, u_dims. destruct (two_or_three u HU) as [V|V]; rewrite V in *; cbn [Z.eqb Pos.eqb] in *; rewrite <- EN.
    + unfold zarray_json. cbn [jval map fst snd tl]. cbn [field lookup String.eqb Ascii.eqb Bool.eqb]. rewrite !jval_ints. repeat split.
    + unfold array_json. cbn [jval map fst snd tl]. cbn [field lookup String.eqb Ascii.eqb Bool.eqb]. rewrite !jval_ints. repeat split.
      * eexists. repeat split.
      * eexists. eexists. repeat split.
  - destruct (proj1 (is_level_nth u HU i) Hi) as [L HL]. destruct (level_names u HU i L HL) as (_ & _ & _ & _ & E5 & _). pose proof (prodA_pos u HU i L HL) as PA. rewrite E5 in PA.
    unfold ceil_div. set (p := prodZ (lv_A u i)) in *. clearbody p. pose proof (Z.div_mod (k + p - 1) p). pose proof (Z.mod_pos_bound (k + p - 1) p). nia.
Qed.
Lemma array_path_doc u i : fair_use u -> array_path u i = doc_path u i.
Proof. intros HU. unfold array_path, array_key, doc_path. destruct (two_or_three u HU) as [V|V]; rewrite V; reflexivity. Qed.
Lemma fs_bk u : fair_use u -> st_s3 (u_set u) = None -> u_bk u = None.
Proof. intros HU S3. pose proof (fu_bk _ HU) as B. rewrite S3 in B. exact B. Qed.

(** *** C37 for v2: if the array document is found, it is empty (just created) or declares at most the frames of the level, and every
    chunk that it declares is found, complete and right in every byte. *)
(** [dies_in_batch]: also while jobs of the pool work on several files at once. *)
Theorem C37_v2_in_batch : forall u groups,
  fair_use u -> whole_frames u groups -> st_version (u_set u) = 2 -> st_s3 (u_set u) = None ->
  exists G, level_frames u (List.concat groups) G /\
    forall tr i c, dies_in_batch (w_trace (after u groups)) (array_path u i) tr -> is_level u i ->
      may_be_found (u_env u) tr (array_path u i) (Some c) ->
      c = [] \/ exists k s0, declares u i k s0 c /\ 0 <= k <= zlen (G i) /\
        forall q cc x, 0 <= q -> q * d_chunk (at_level i (u_d0 u)) < s0 -> in_bounds (map nch (lv_inner u i)) cc ->
          may_be_found (u_env u) tr (path_of_coords (u_root u ++ "/" ++ dec (Z.of_nat i)) (q :: cc)) x ->
          exists raw, x = Some raw /\ raw = u_enc u (u_dec u raw) /\
            chunk_holds (u_bpp u) (lv_A u i) (lv_H u i) (lv_W u i) (G i) (map d_chunk (lv_dims u i)) (q :: cc) (u_dec u raw).
Proof.
  intros u groups HU HG V S3. exists (u_frames u (List.concat groups)). split; [apply u_levels; auto using frames_whole|].
  intros tr i c D Hi Hc. rewrite array_path_doc in Hc, D by exact HU.
  destruct (crash_v2 u HU groups HG (fs_bk u HU S3) i tr c V Hi D Hc) as [->|(k & J & K & H)]; [left; reflexivity|right].
  exists k, (ceil_div k (prodZ (lv_A u i))). split; [apply doc_declares; auto|]. split; [exact K|exact H].
Qed.
Theorem C37_v2 : forall u groups,
  fair_use u -> whole_frames u groups -> st_version (u_set u) = 2 -> st_s3 (u_set u) = None ->
  exists G, level_frames u (List.concat groups) G /\
    forall tr i c, dies_at (w_trace (after u groups)) tr -> is_level u i ->
      may_be_found (u_env u) tr (array_path u i) (Some c) ->
      c = [] \/ exists k s0, declares u i k s0 c /\ 0 <= k <= zlen (G i) /\
        forall q cc x, 0 <= q -> q * d_chunk (at_level i (u_d0 u)) < s0 -> in_bounds (map nch (lv_inner u i)) cc ->
          may_be_found (u_env u) tr (path_of_coords (u_root u ++ "/" ++ dec (Z.of_nat i)) (q :: cc)) x ->
          exists raw, x = Some raw /\ raw = u_enc u (u_dec u raw) /\
            chunk_holds (u_bpp u) (lv_A u i) (lv_H u i) (lv_W u i) (G i) (map d_chunk (lv_dims u i)) (q :: cc) (u_dec u raw).
Proof.
  intros u groups HU HG V S3. destruct (C37_v2_in_batch u groups HU HG V S3) as (G & A & B). exists G. split; auto. intros tr i c D. apply B. apply at_in_batch, D.
Qed.

(** *** C37 for v3 *)
(** Full statement: for every shard that contains declared frames. It is false for a last shard that is not full: C37_v3_refuted. *)
Theorem C37_v3_in_batch_partial : forall u groups,
  fair_use u -> whole_frames u groups -> st_version (u_set u) = 3 -> st_s3 (u_set u) = None ->
  exists G, level_frames u (List.concat groups) G /\
    forall tr i c, dies_in_batch (w_trace (after u groups)) (array_path u i) tr -> is_level u i ->
      may_be_found (u_env u) tr (array_path u i) (Some c) ->
      c = [] \/ exists k s0, declares u i k s0 c /\ 0 <= k <= zlen (G i) /\
        let shards := map d_shard (lv_inner u i) in
        let N := prodZ (map d_shard (lv_dims u i)) in
        let S0 := d_shard (at_level i (u_d0 u)) in
        forall s sc x, 0 <= s -> (s + 1) * lv_shard_period u i <= k -> in_bounds (map nsh (lv_inner u i)) sc ->
          may_be_found (u_env u) tr (shard_key (u_root u ++ "/data/root/" ++ dec (Z.of_nat i)) (s :: sc)) x ->
          exists file, x = Some file /\ index_ok file N /\
            forall cc, in_bounds (map nch (lv_inner u i)) cc -> zip_with Z.div cc shards = sc ->
            exists raw,
              shard_chunk file N (ravel (map d_shard (lv_dims u i)) (0 :: zip_with Z.modulo cc shards)) = Some raw /\
              raw = u_enc u (u_dec u raw) /\
              chunk_holds (u_bpp u) (lv_A u i) (lv_H u i) (lv_W u i) (G i) (map d_chunk (lv_dims u i)) ((s * S0 + S0 - 1) :: cc) (u_dec u raw).
Proof.
  intros u groups HU HG V S3. exists (u_frames u (List.concat groups)). split; [apply u_levels; auto using frames_whole|].
  intros tr i c D Hi Hc. rewrite array_path_doc in Hc, D by exact HU.
  destruct (crash_v3 u HU groups HG (fs_bk u HU S3) i tr c V Hi D Hc) as [->|(k & J & K & H)]; [left; reflexivity|right].
  exists k, (ceil_div k (prodZ (lv_A u i))). split; [apply doc_declares; auto|]. split; [exact K|].
  intros shards N S0 s sc x Hs Hk Hsc Hx. pose proof (s_level_v3 u HU groups HG i V Hi) as L3. unfold level_v3 in L3.
  destruct (proj1 (is_level_nth u HU i) Hi) as [L HL]. destruct (level_names u HU i L HL) as (_ & _ & _ & _ & E5 & E6 & E7 & E8).
  destruct (a_good u HU i L HL) as [GG _]. pose proof (g_f _ _ _ _ _ _ _ _ _ _ _ _ _ _ GG) as Hf. destruct (g_s _ _ _ _ _ _ _ _ _ _ _ _ _ _ GG) as [Hsh _]; [rewrite V; reflexivity|].
  pose proof (prodA_pos u HU i L HL) as PA. pose proof (fit_c0 _ _ _ _ _ Hf) as C0. pose proof (fit_s0 _ _ _ _ Hsh) as SS.
  assert (P0 : 0 < lv_period u i). { unfold lv_period. rewrite <- E5, <- E8. apply Z.mul_pos_pos; lia. }
  assert (S1 : 0 < S0). { unfold S0. rewrite <- E8. lia. }
  assert (PP : lv_shard_period u i = lv_period u i * S0) by reflexivity.
  assert (Hf1 : (s + 1) * lv_shard_period u i <= zlen (u_frames u (List.concat groups) i)) by lia.
  assert (Hlt : s * lv_shard_period u i < zlen (u_frames u (List.concat groups) i)). { apply Z.lt_le_trans with ((s + 1) * lv_shard_period u i); [|exact Hf1]. rewrite PP. clear -P0 S1. nia. }
  destruct (L3 s sc (or_introl Hf1) Hs Hlt Hsc) as (file & F1 & F2 & F3).
  exists file. split; [rewrite <- F1; exact (H s sc x Hs Hk Hsc Hx)|]. split; [exact F2|]. intros cc Hcc Hd. specialize (F3 cc Hcc Hd). cbv zeta in F3.
  fold S0 in F3. fold shards in F3. rewrite Z.min_l in F3.
  - exact F3.
  - assert (C : (s + 1) * S0 <= ceil_div (zlen (u_frames u (List.concat groups) i)) (lv_period u i)); [|lia].
    unfold ceil_div. apply Z.div_le_lower_bound; [lia|]. rewrite PP in Hf1. clear -P0 S1 Hf1. nia.
Qed.
Theorem C37_v3_full_shards_partial : forall u groups,
  fair_use u -> whole_frames u groups -> st_version (u_set u) = 3 -> st_s3 (u_set u) = None ->
  exists G, level_frames u (List.concat groups) G /\
    forall tr i c, dies_at (w_trace (after u groups)) tr -> is_level u i ->
      may_be_found (u_env u) tr (array_path u i) (Some c) ->
      c = [] \/ exists k s0, declares u i k s0 c /\ 0 <= k <= zlen (G i) /\
        let shards := map d_shard (lv_inner u i) in
        let N := prodZ (map d_shard (lv_dims u i)) in
        let S0 := d_shard (at_level i (u_d0 u)) in
        forall s sc x, 0 <= s -> (s + 1) * lv_shard_period u i <= k -> in_bounds (map nsh (lv_inner u i)) sc ->
          may_be_found (u_env u) tr (shard_key (u_root u ++ "/data/root/" ++ dec (Z.of_nat i)) (s :: sc)) x ->
          exists file, x = Some file /\ index_ok file N /\
            forall cc, in_bounds (map nch (lv_inner u i)) cc -> zip_with Z.div cc shards = sc ->
            exists raw,
              shard_chunk file N (ravel (map d_shard (lv_dims u i)) (0 :: zip_with Z.modulo cc shards)) = Some raw /\
              raw = u_enc u (u_dec u raw) /\
              chunk_holds (u_bpp u) (lv_A u i) (lv_H u i) (lv_W u i) (G i) (map d_chunk (lv_dims u i)) ((s * S0 + S0 - 1) :: cc) (u_dec u raw).
Proof.
  intros u groups HU HG V S3. destruct (C37_v3_in_batch_partial u groups HU HG V S3) as (G & A & B). exists G. split; auto. intros tr i c D. apply B. apply at_in_batch, D.
Qed.

(** *** C33: at every moment the array document is absent, empty or one complete document that declares at most the frames of the level. *)
Theorem C33_every_moment : forall u groups tr i,
  fair_use u -> whole_frames u groups -> st_s3 (u_set u) = None ->
  dies_at (w_trace (after u groups)) tr -> is_level u i ->
  match file_of (u_env u) tr (array_path u i) with
  | None => True
  | Some c => c = [] \/ exists k s0, declares u i k s0 c /\ 0 <= k <= zlen (List.concat groups) / 2 ^ Z.of_nat i
  end.
Proof.
  intros u groups tr i HU HG S3 D Hi. destruct (file_of (u_env u) tr (array_path u i)) as [c|] eqn:Hc; [|exact I].
  assert (M : may_be_found (u_env u) tr (doc_path u i) (Some c)).
  { exists tr, []. rewrite app_nil_r, <- array_path_doc by exact HU. auto. }
  assert (Hk : forall k, json_of c = Some (jval (array_doc u i k)) -> 0 <= k <= zlen (u_frames u (List.concat groups) i) ->
     exists k s0, declares u i k s0 c /\ 0 <= k <= zlen (List.concat groups) / 2 ^ Z.of_nat i).
  { intros k J K. exists k, (ceil_div k (prodZ (lv_A u i))). split; [apply doc_declares; auto|]. rewrite frames_count in K. exact K. }
  destruct (two_or_three u HU) as [V|V].
  - destruct (crash_v2 u HU groups HG (fs_bk u HU S3) i tr c V Hi (at_in_batch _ _ _ D) M) as [->|(k & J & K & H)]; [left; reflexivity|right; eauto].
  - destruct (crash_v3 u HU groups HG (fs_bk u HU S3) i tr c V Hi (at_in_batch _ _ _ D) M) as [->|(k & J & K & H)]; [left; reflexivity|right; eauto].
Qed.

(** *** Refuted: a last shard that is not full. When destroy dies between closing the array document and closing the shards, the document
    declares the frame, and the shard file is empty: nothing of it has left the buffer. *)
Definition settlesb (p : string) (e : event) : bool :=
  match e with EOpen q | EFlush q | EClose q => String.eqb q p | ERemoveAll q => under q p | _ => false end.
Lemma settlesb_ok p l : forallb (fun e => negb (settlesb p e)) l = true -> Forall (fun e => ~ settles p e) l.
Proof.
  rewrite forallb_forall, Forall_forall. intros H e He Hs. specialize (H e He). destruct e; simpl in *; try tauto; rewrite ?Hs, ?String.eqb_refl in H; discriminate.
Qed.
Definition removes (e : event) : bool := match e with ERemoveAll _ => true | _ => false end.
(** one evaluation of the session: after [n] events the file [p] has content [c], a non-empty one, and nothing is removed any more;
    the last [n - m] events do not settle the file [p'], which was empty before *)
Definition crash_check (E : env) (all : list event) (n m : nat) (p p' : string) (c : list Z) : bool :=
  forallb (fun e => negb (removes e)) (skipn n all) &&
  match file_of E (firstn n all) p with Some d => if list_eq_dec Z.eq_dec d c then true else false | None => false end &&
  (Nat.leb m n && forallb (fun e => negb (settlesb p' e)) (skipn m (firstn n all)) && match file_of E (firstn m all) p' with Some [] => true | _ => false end).
Lemma crash_check_ok E all n m p p' c : crash_check E all n m p p' c = true ->
  dies_at all (firstn n all) /\ may_be_found E (firstn n all) p (Some c) /\ may_be_found E (firstn n all) p' (Some []).
Proof.
  unfold crash_check. rewrite !andb_true_iff. intros ((H1 & H2) & (H3 & H4) & H5). apply Nat.leb_le in H3. split; [|split].
  - exists (skipn n all). split; [symmetry; apply firstn_skipn|]. intros q Hq. rewrite forallb_forall in H1. specialize (H1 _ Hq). discriminate.
  - destruct (file_of E (firstn n all) p) as [d|] eqn:F; [|discriminate]. destruct (list_eq_dec Z.eq_dec d c) as [->|]; [|discriminate].
    exists (firstn n all), []. rewrite app_nil_r. auto.
  - destruct (file_of E (firstn m all) p') as [[|? ?]|] eqn:F; try discriminate.
    exists (firstn m (firstn n all)), (skipn m (firstn n all)). split; [symmetry; apply firstn_skipn|]. split; [apply settlesb_ok; exact H4|].
    rewrite firstn_firstn, Nat.min_l by exact H3. exact F.
Qed.

Theorem C37_v3_refuted : exists u groups tr c k s0,
  fair_use u /\ whole_frames u groups /\ st_version (u_set u) = 3 /\ st_s3 (u_set u) = None /\ dies_at (w_trace (after u groups)) tr /\
  may_be_found (u_env u) tr (array_path u 0) (Some c) /\ declares u 0 k s0 c /\ 0 < k /\
  may_be_found (u_env u) tr (shard_key (u_root u ++ "/data/root/0") [0; 0; 0; 0]) (Some []).
Proof.
  set (u := ex_comp 3 false false). set (groups := ex_groups 1 1).
  exists u, groups, (firstn 61 (w_trace (after u groups))).
  assert (HU : fair_use u) by (apply ex_comp_fair; auto).
  assert (HL : is_level u 0) by (left; reflexivity).
  exists (text (dump (array_doc u 0 1))), 1, 1.
  destruct (crash_check_ok (u_env u) (w_trace (after u groups)) 61 30 (array_path u 0) (shard_key (u_root u ++ "/data/root/0") [0; 0; 0; 0])
              (text (dump (array_doc u 0 1)))) as (D & M & S); [vm_compute; reflexivity|].
  split; [exact HU|]. split; [apply ex_frames_whole; lia|]. split; [reflexivity|]. split; [reflexivity|].
  split; [exact D|]. split; [exact M|].
  assert (EC : ceil_div 1 (prodZ (lv_A u 0)) = 1) by (vm_compute; reflexivity).
  assert (EJ : json_of (text (dump (array_doc u 0 1))) = Some (jval (array_doc u 0 1))) by (vm_compute; reflexivity).
  split; [pose proof (doc_declares u 0 1 _ HU HL EJ) as X; rewrite EC in X; exact X|]. split; [lia|exact S].
Qed.

(** *** Refuted: writes that arrive in part. The document is rewritten in place: 19 rows, then 20; if only the first digit arrives, the
    document declares 29 rows, and 58 frames (20 rows) were appended. *)
Definition torn_shape (E : env) (all : list event) (n k : nat) (p : string) : option jv :=
  match nth_error all n with
  | Some (EWrite q off d) =>
    if String.eqb q p && forallb (fun e => negb (removes e)) (skipn (S n) all)
    then match file_of E (firstn n all ++ [EWrite p off (firstn k d)]) p with
         | Some c => match json_of c with Some v => field "shape" v | None => None end
         | None => None end
    else None
  | _ => None
  end.
Lemma torn_shape_ok E all n k p s : torn_shape E all n k p = Some s ->
  exists tr c v, dies_at all tr /\ may_be_found_torn E tr p (Some c) /\ json_of c = Some v /\ field "shape" v = Some s.
Proof.
  unfold torn_shape. destruct (nth_error all n) as [e|] eqn:N; [|discriminate]. destruct e as [| | |q off d| | | | | |]; try discriminate.
  destruct (String.eqb_spec q p) as [->|]; [|discriminate]. cbn [andb].
  destruct (forallb (fun e => negb (removes e)) (skipn (S n) all)) eqn:R; [|discriminate].
  destruct (file_of E (firstn n all ++ [EWrite p off (firstn k d)]) p) as [c|] eqn:F; [|discriminate].
  destruct (json_of c) as [v|] eqn:J; [|discriminate]. intros H.
  exists (firstn n all ++ [EWrite p off d]), c, v. split; [|split; [|auto]].
  - exists (skipn (S n) all). split.
    + rewrite <- app_assoc. cbn [app]. rewrite <- (firstn_skipn n all) at 1. f_equal. clear -N. revert all N. induction n as [|n IH]; intros [|x l] N; cbn in *; try discriminate; [injection N as ->; reflexivity|auto].
    + intros r Hr. rewrite forallb_forall in R. specialize (R _ Hr). discriminate.
  - right. exists (firstn n all), [], off, d, k. split; [reflexivity|]. split; [constructor|exact F].
Qed.
Theorem C37_torn_write_refuted : exists u groups tr c v,
  fair_use u /\ whole_frames u groups /\ st_version (u_set u) = 2 /\ st_s3 (u_set u) = None /\ dies_at (w_trace (after u groups)) tr /\
  may_be_found_torn (u_env u) tr (array_path u 0) (Some c) /\ json_of c = Some v /\ field "shape" v = Some (vints [29; 3; 5; 7]) /\
  zlen (List.concat groups) = 58.
Proof.
  set (u := ex_use 2 false None false dt_uint8 1 (mkdim "t" ty_time 0 19 1)). set (groups := ex_groups 1 58).
  destruct (torn_shape_ok (u_env u) (w_trace (after u groups)) 182 229 (array_path u 0) (vints [29; 3; 5; 7])) as (tr & c & v & D & M & J & S); [vm_compute; reflexivity|].
  exists u, groups, tr, c, v. split; [apply ex_use_fair; cbn; auto 10|]. split; [apply ex_frames_whole; lia|]. split; [reflexivity|]. split; [reflexivity|].
  split; [exact D|]. split; [exact M|]. split; [exact J|]. split; [exact S|]. vm_compute. reflexivity.
Qed.

(** *** The hypotheses can be met: a crash after the document of 6 frames has been written and before destroy *)
Lemma doc_there u groups n p : match file_of (u_env u) (firstn n (w_trace (after u groups))) p with Some (_ :: _) => true | _ => false end
    && forallb (fun e => negb (removes e)) (skipn n (w_trace (after u groups))) = true ->
  exists tr c, dies_at (w_trace (after u groups)) tr /\ may_be_found (u_env u) tr p (Some c) /\ c <> [].
Proof.
  rewrite andb_true_iff. intros [H1 H2]. destruct (file_of _ _ p) as [[|x c]|] eqn:F; try discriminate.
  exists (firstn n (w_trace (after u groups))), (x :: c). split; [|split; [|discriminate]].
  - exists (skipn n (w_trace (after u groups))). split; [symmetry; apply firstn_skipn|]. intros q Hq. rewrite forallb_forall in H2. specialize (H2 _ Hq). discriminate.
  - exists (firstn n (w_trace (after u groups))), []. rewrite app_nil_r. auto.
Qed.
Example C37_v2_hypotheses : let u := ex_plain 2 false in let groups := ex_groups 2 7 in
  fair_use u /\ whole_frames u groups /\ st_version (u_set u) = 2 /\ st_s3 (u_set u) = None /\ is_level u 0 /\
  exists tr c, dies_at (w_trace (after u groups)) tr /\ may_be_found (u_env u) tr (array_path u 0) (Some c) /\ c <> [].
Proof.
  intros u groups. split; [apply ex_plain_fair; auto|]. split; [apply ex_frames_whole; lia|]. split; [reflexivity|]. split; [reflexivity|]. split; [left; reflexivity|].
  apply (doc_there u groups 100). vm_compute. reflexivity.
Qed.
Example C37_v3_hypotheses : let u := ex_plain 3 false in let groups := ex_groups 2 7 in
  fair_use u /\ whole_frames u groups /\ st_version (u_set u) = 3 /\ st_s3 (u_set u) = None /\ is_level u 0 /\
  exists tr c, dies_at (w_trace (after u groups)) tr /\ may_be_found (u_env u) tr (array_path u 0) (Some c) /\ c <> [].
Proof.
  intros u groups. split; [apply ex_plain_fair; auto|]. split; [apply ex_frames_whole; lia|]. split; [reflexivity|]. split; [reflexivity|]. split; [left; reflexivity|].
  apply (doc_there u groups 80). vm_compute. reflexivity.
Qed.
Print Assumptions C37_v2_in_batch.
Print Assumptions C37_v2.
Print Assumptions C37_v3_in_batch_partial.
Print Assumptions C37_v3_full_shards_partial.
Print Assumptions C37_v3_refuted.
Print Assumptions C37_torn_write_refuted.
Print Assumptions C33_every_moment.
