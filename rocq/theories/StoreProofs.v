(** The store after a session, as a reader sees it. *)
Require Import ZArith List Bool String Ascii Lia Zify.
Require Import Verif.Base Verif.Spec Verif.Dim Verif.Limits Verif.Radix Verif.Json Verif.PathProofs Verif.World Verif.Writer
  Verif.SinkProofs Verif.CreateProofs Verif.FlushProofs Verif.LayoutProofs Verif.BufProofs Verif.WriterProofs
  Verif.LevelProofs Verif.Stream Verif.MetaProofs Verif.StreamProofs Verif.PyramidProofs Verif.Api Verif.SettingsSpec Verif.ValidProofs
  Verif.SessionSpec Verif.SessionProofs Verif.JsonSpec Verif.JsonProofs.
Import ListNotations.
Open Scope string_scope.
Open Scope list_scope.
Open Scope Z_scope.

(** *** one level *)
Section Level.
Variables (E : env) (root : string) (bk : option string) (m : nat) (L : lev) (F : list (list Z)) (tr : list event).
Variable decode : list Z -> list Z.
Hypothesis Hdec : forall raw, zlen raw = l_B L -> decode (l_enc L raw) = raw.
Let A := map d_array (l_mids L).

Lemma level_read2 : lev_ok E false root bk m L -> final E false bk L F tr ->
  forall t mm y x b, 0 <= t < ceil_div (zlen F) (prodZ A) -> in_bounds A mm -> 0 <= y < d_array (l_dy L) -> 0 <= x < d_array (l_dx L) -> 0 <= b < l_bpp L ->
  read_v2 (stored E tr bk) decode (root ++ "/" ++ dec (l_level L))%string (map d_chunk (l_ds L)) (l_bpp L) (t :: mm ++ [y; x]) b
  = appended_byte (l_bpp L) A (d_array (l_dx L)) F t mm y x b.
Proof.
  intros H [C1 _] t mm y x b Ht Hm Hy Hx Hb.
  pose proof (read_v2_ok E (l_cfg L) (l_bpp L) (l_d0 L) (l_mids L) (l_dy L) (l_dx L) (lo_f _ _ _ _ _ _ H) (lo_ep _ _ _ _ _ _ H) (l_enc L)) as R.
  specialize (R F tr decode Hdec C1 t mm y x b Ht Hm Hy Hx Hb).
  rewrite (lo_bk _ _ _ _ _ _ H), (lo_root _ _ _ _ _ _ H) in R. refine (eq_trans _ R).
  unfold read_v2. destruct bk; reflexivity.
Qed.

(** the shards that hold data are complete: always for whole shards; for the last one if it is on a
    file system and was not left at a chunk boundary *)
Definition complete3 : Prop := zlen F mod l_PP L = 0 \/ (bk = None /\ zlen F mod l_P L <> 0).

Lemma complete_files : lev_ok E true root bk m L -> final E true bk L F tr ->
  forall s k, (s + 1) * l_PP L <= zlen F \/ complete3 -> 0 <= s -> s * l_PP L < zlen F -> (k < Z.to_nat (prodZ (map nsh (l_mids L ++ [l_dy L; l_dx L]))))%nat ->
    content E tr (sloc (l_cfg L) (l_mids L) (l_dy L) (l_dx L) s k)
    = Some (sfile (l_bpp L) (l_d0 L) (l_mids L) (l_dy L) (l_dx L) (l_enc L) F s k (Z.to_nat (rows (l_d0 L) (l_mids L) F s))).
Proof.
  intros H (C1 & C2 & C3 & _) s k Hc Hs0 Hs Hk. destruct (lo_s _ _ _ _ _ _ H eq_refl) as [Hsh _].
  destruct (epoch_le (l_cfg L) (l_bpp L) (l_d0 L) (l_mids L) (l_dy L) (l_dx L) (lo_f _ _ _ _ _ _ H) (lo_ep _ _ _ _ _ _ H) Hsh F s Hs0 Hs) as [X|[X Y]].
  - rewrite (rows_old (l_cfg L) (l_bpp L) (l_d0 L) (l_mids L) (l_dy L) (l_dx L) (lo_f _ _ _ _ _ _ H) (lo_ep _ _ _ _ _ _ H) Hsh F s X). apply C1; auto.
  - destruct Hc as [Hc|[Hc|[Hb Hp]]]; [exfalso| |].
    { pose proof (last_not_full (l_cfg L) (l_bpp L) (l_d0 L) (l_mids L) (l_dy L) (l_dx L) (lo_f _ _ _ _ _ _ H) (lo_ep _ _ _ _ _ _ H) Hsh F) as Z. subst s. unfold l_PP, l_P in Hc. lia. }
    { exfalso; apply Y; exact Hc. } subst s.
    rewrite (rows_last (l_cfg L) (l_bpp L) (l_d0 L) (l_mids L) (l_dy L) (l_dx L) (lo_f _ _ _ _ _ _ H) (lo_ep _ _ _ _ _ _ H) Hsh F Hp), Nat2Z.id. apply C2; auto.
Qed.

Lemma level_read3 : lev_ok E true root bk m L -> final E true bk L F tr ->
  forall t mm y x b, (t / d_chunk (l_d0 L) / d_shard (l_d0 L) + 1) * l_PP L <= zlen F \/ complete3 -> 0 <= t < ceil_div (zlen F) (prodZ A) -> in_bounds A mm -> 0 <= y < d_array (l_dy L) -> 0 <= x < d_array (l_dx L) -> 0 <= b < l_bpp L ->
  read_v3 (stored E tr bk) decode (root ++ "/data/root/" ++ dec (l_level L))%string (map d_chunk (l_ds L)) (map d_shard (l_ds L)) (l_bpp L) (t :: mm ++ [y; x]) b
  = if (t / d_chunk (l_d0 L)) mod d_shard (l_d0 L) =? 0
    then appended_byte (l_bpp L) A (d_array (l_dx L)) F (t + (rows (l_d0 L) (l_mids L) F (t / d_chunk (l_d0 L) / d_shard (l_d0 L)) - 1) * d_chunk (l_d0 L)) mm y x b
    else 0.
Proof.
  intros H Hf t mm y x b Hc Ht Hm Hy Hx Hb. destruct (lo_s _ _ _ _ _ _ H eq_refl) as [Hsh Hfile].
  pose proof (read_v3_ok E (l_cfg L) (l_bpp L) (l_d0 L) (l_mids L) (l_dy L) (l_dx L) (lo_f _ _ _ _ _ _ H) (lo_ep _ _ _ _ _ _ H) (l_enc L) (l_mxl L) (lo_enc _ _ _ _ _ _ H)) as R.
  assert (FI : forall s k, s = t / d_chunk (l_d0 L) / d_shard (l_d0 L) -> 0 <= s -> s * l_PP L < zlen F -> (k < Z.to_nat (prodZ (map nsh (l_mids L ++ [l_dy L; l_dx L]))))%nat -> content E tr (sloc (l_cfg L) (l_mids L) (l_dy L) (l_dx L) s k) = Some (sfile (l_bpp L) (l_d0 L) (l_mids L) (l_dy L) (l_dx L) (l_enc L) F s k (Z.to_nat (rows (l_d0 L) (l_mids L) F s)))).
  { intros s k -> . apply (complete_files H Hf). exact Hc. }
  specialize (R Hsh Hfile F tr decode Hdec t mm y x b FI Ht Hm Hy Hx Hb).
  rewrite (lo_bk _ _ _ _ _ _ H), (lo_root _ _ _ _ _ _ H) in R. refine (eq_trans _ R).
  replace (root ++ "/data/root/" ++ dec (l_level L))%string with (join_path root ["data"; "root"; dec (c_level (l_cfg L))]).
  - unfold read_v3. destruct bk; reflexivity.
  - cbn [join_path]. rewrite !sapp_assoc. reflexivity.
Qed.
End Level.

(** *** array documents *)
Definition vcomp2 (c : option blosc) : jv :=
  match c with None => VNull | Some b => VObj [("clevel", vint (b_clevel b)); ("cname", VStr (b_codec b)); ("id", VStr "blosc"); ("shuffle", vint (b_shuffle b))] end.
Lemma jval_ints l : jval (jints l) = vints l.
Proof. unfold jints, vints. cbn [jval]. f_equal. rewrite map_map. reflexivity. Qed.
Lemma jwf_ints l : Forall (fun z => 0 <= z) l -> jwf (jints l).
Proof. intros H. apply jwf_arr. unfold jints, lwf. apply Forall_map. exact H. Qed.

Lemma dims_nonneg bpp d0 mids dy dx : fits bpp d0 mids dy dx -> Forall (fun d => 0 <= d_array d /\ 0 <= d_chunk d) (mids ++ [dy; dx]) /\ 0 <= d_chunk d0.
Proof. intros [? ? q ? ? ? ? ?]. split; [|lia]. eapply Forall_impl; [|exact q]. intros d (A & B & _). lia. Qed.
Definition comp_pos (c : option blosc) : Prop := forall b, c = Some b -> 0 <= b_clevel b /\ 0 <= b_shuffle b.
Lemma zarray_wf n bpp d0 mids dy dx t c : fits bpp d0 mids dy dx -> 0 <= n -> comp_pos c -> jwf (zarray_json n (d0 :: mids ++ [dy; dx]) t c).
Proof.
  intros Hf Hn Hc. destruct (dims_nonneg _ _ _ _ _ Hf) as [A B]. unfold zarray_json. cbn [jwf snd tl map].
  assert (X1 : jwf (jints (d_chunk d0 :: map d_chunk (mids ++ [dy; dx])))).
  { apply jwf_ints. constructor; auto. apply Forall_map. eapply Forall_impl; [|exact A]. intros d [_ H]. exact H. }
  assert (X2 : jwf (jints (n :: map d_array (mids ++ [dy; dx])))).
  { apply jwf_ints. constructor; auto. apply Forall_map. eapply Forall_impl; [|exact A]. intros d [H _]. exact H. }
  split; [exact X1|]. split; [destruct c as [b|]; [destruct (Hc b eq_refl); cbn; auto|exact I]|].
  split; [exact I|]. split; [exact I|]. split; [lia|]. split; [exact I|]. split; [exact I|]. split; [exact X2|]. split; [lia|exact I].
Qed.
Lemma array_wf n bpp d0 mids dy dx t c : fits bpp d0 mids dy dx -> fits_shards d0 mids dy dx -> 0 <= n -> comp_pos c -> jwf (array_json n (d0 :: mids ++ [dy; dx]) t c).
Proof.
  intros Hf Hs Hn Hc. destruct (dims_nonneg _ _ _ _ _ Hf) as [A B]. unfold array_json. cbn [jwf snd tl map].
  assert (X1 : jwf (jints (d_chunk d0 :: map d_chunk (mids ++ [dy; dx])))).
  { apply jwf_ints. constructor; auto. apply Forall_map. eapply Forall_impl; [|exact A]. intros d [_ H]. exact H. }
  assert (X2 : jwf (jints (n :: map d_array (mids ++ [dy; dx])))).
  { apply jwf_ints. constructor; auto. apply Forall_map. eapply Forall_impl; [|exact A]. intros d [H _]. exact H. }
  assert (X3 : jwf (jints (d_shard d0 :: map d_shard (mids ++ [dy; dx])))).
  { destruct Hs as [s0 si _ _ _]. apply jwf_ints. constructor; [lia|]. apply Forall_map. eapply Forall_impl; [|exact si]. intros d [H _]. lia. }
  split; [exact I|]. split; [split; [exact X1|repeat split]|]. split; [exact I|]. split; [destruct c as [b|]; [destruct (Hc b eq_refl); cbn; repeat split; auto; lia|exact I]|].
  split; [exact I|]. split; [exact I|]. split; [lia|]. split; [exact X2|]. split; [|exact I]. split; [|exact I]. split; [|repeat split]. split; [exact X3|exact I].
Qed.

(** *** a session *)
Section A.
Variable u : use.
Hypothesis HU : fair_use u.
Variable groups : list (list (list Z)).
Hypothesis HG : whole_frames u groups.
Let E := u_env u.
Let st := u_set u.
Let v3 := (st_version st =? 3).
Let F := List.concat groups.
Let tr := w_trace (after u groups).
Let Ls := u_L0 u :: u_Lr u.

Lemma a_succeeds : succeeds u groups.
Proof. unfold succeeds. destruct (session_ok u HU groups HG) as (w0 & w' & R & _). rewrite R. reflexivity. Qed.
Lemma a_final i L : nth_error Ls i = Some L -> final E v3 (u_bk u) L (u_frames u F i) tr.
Proof.
  intros H. unfold tr, after. destruct (session_ok u HU groups HG) as (w0 & w' & R & FIN & _). rewrite R. cbn [fst]. apply FIN. exact H.
Qed.
Lemma a_docs : exists w0, Forall (doc_stored E (u_root u) (u_bk u) (w_trace w0) tr) (docs_of E v3 (u_L0 u) (u_Lr u) (u_custom u)).
Proof. unfold tr, after. destruct (session_ok u HU groups HG) as (w0 & w' & R & _ & D & _). exists w0. rewrite R. exact D. Qed.

Lemma a_ok i L : nth_error Ls i = Some L -> lev_ok E v3 (u_root u) (u_bk u) (List.length (u_mids u)) L /\ l_level L = Z.of_nat i.
Proof. apply u_lgood. exact HU. Qed.

Lemma a_good i L : nth_error Ls i = Some L ->
  good v3 (u_root u) (u_bk u) (option_map blosc_of (st_comp st)) (List.length (u_mids u)) (u_bpp u) (st_dtype st) (u_most u) (u_chunkb u) (l_cfg L) (l_d0 L) (l_mids L) (l_dy L) (l_dx L) /\
  L = lev_of (u_bpp u) (u_most u) (u_t u) (u_enc u) (l_cfg L) (l_d0 L) (l_mids L) (l_dy L) (l_dx L).
Proof.
  intros H. destruct (st_multi st) eqn:M.
  - destruct (u_links u HU M) as [A _]. destruct (A i L H) as (G & EL & _). auto.
  - unfold Ls, u_Lr in H. fold st in H. rewrite M in H. destruct i as [|i]; [|destruct i; discriminate]. injection H as <-. split; [exact (u_good u HU)|reflexivity].
Qed.
Lemma a_dec i L : nth_error Ls i = Some L -> forall raw, zlen raw = l_B L -> u_dec u (l_enc L raw) = raw.
Proof.
  intros H raw Hr. destruct (a_good i L H) as [G EL]. destruct (a_ok i L H) as [OK _].
  assert (EE : l_enc L = u_enc u) by (rewrite EL; reflexivity). rewrite EE.
  assert (EB : l_bpp L = u_bpp u) by (rewrite EL; reflexivity).
  pose proof (fu_codec _ HU) as C. destruct (st_comp (u_set u)) as [c|].
  - apply C. pose proof (g_B _ _ _ _ _ _ _ _ _ _ _ _ _ _ G) as X. rewrite Hr. unfold l_B, l_ds. rewrite EB. split; [|exact X].
    destruct (g_f _ _ _ _ _ _ _ _ _ _ _ _ _ _ G). apply Z.mul_pos_pos; [|lia]. apply prodZ_pos. constructor; [lia|]. apply DimProofs.inner_allpos_chk. auto.
  - destruct C as [C1 C2]. rewrite C1, C2. reflexivity.
Qed.
Lemma a_compos : comp_pos (option_map blosc_of (st_comp st)).
Proof.
  destruct (fu_typed _ HU) as (_ & _ & T & _). fold st in T. intros b Hb. destruct (st_comp st) as [c|]; [|discriminate]. injection Hb as <-. destruct (T c eq_refl) as (_ & _ & A & B). cbn. auto.
Qed.

Lemma a_read2 i L : st_version st = 2 -> nth_error Ls i = Some L -> let Fi := u_frames u F i in let A := map d_array (l_mids L) in
  forall t mm y x b, 0 <= t < ceil_div (zlen Fi) (prodZ A) -> in_bounds A mm -> 0 <= y < d_array (l_dy L) -> 0 <= x < d_array (l_dx L) -> 0 <= b < u_bpp u ->
  read_v2 (stored E tr (u_bk u)) (u_dec u) (u_root u ++ "/" ++ dec (Z.of_nat i))%string (map d_chunk (l_ds L)) (u_bpp u) (t :: mm ++ [y; x]) b
  = appended_byte (u_bpp u) A (d_array (l_dx L)) Fi t mm y x b.
Proof.
  intros V H Fi A t mm y x b Ht Hm Hy Hx Hb. destruct (a_ok i L H) as [OK LV]. pose proof (a_final i L H) as FIN. destruct (a_good i L H) as [G EL].
  assert (EB : l_bpp L = u_bpp u) by (rewrite EL; reflexivity). unfold v3 in *. rewrite V in OK, FIN. change (2 =? 3) with false in *. rewrite <- LV, <- EB in *.
  eapply level_read2; eauto. exact (a_dec i L H).
Qed.
Lemma a_read3 i L : st_version st = 3 -> nth_error Ls i = Some L -> let Fi := u_frames u F i in let A := map d_array (l_mids L) in
  forall t mm y x b, (t / d_chunk (l_d0 L) / d_shard (l_d0 L) + 1) * l_PP L <= zlen Fi \/ complete3 (u_bk u) L Fi -> 0 <= t < ceil_div (zlen Fi) (prodZ A) -> in_bounds A mm -> 0 <= y < d_array (l_dy L) -> 0 <= x < d_array (l_dx L) -> 0 <= b < u_bpp u ->
  read_v3 (stored E tr (u_bk u)) (u_dec u) (u_root u ++ "/data/root/" ++ dec (Z.of_nat i))%string (map d_chunk (l_ds L)) (map d_shard (l_ds L)) (u_bpp u) (t :: mm ++ [y; x]) b
  = if (t / d_chunk (l_d0 L)) mod d_shard (l_d0 L) =? 0
    then appended_byte (u_bpp u) A (d_array (l_dx L)) Fi (t + (rows (l_d0 L) (l_mids L) Fi (t / d_chunk (l_d0 L) / d_shard (l_d0 L)) - 1) * d_chunk (l_d0 L)) mm y x b
    else 0.
Proof.
  intros V H Fi A t mm y x b Hc Ht Hm Hy Hx Hb. destruct (a_ok i L H) as [OK LV]. pose proof (a_final i L H) as FIN. destruct (a_good i L H) as [G EL].
  assert (EB : l_bpp L = u_bpp u) by (rewrite EL; reflexivity). unfold v3 in *. rewrite V in OK, FIN. change (3 =? 3) with true in *. rewrite <- LV, <- EB in *.
  eapply level_read3; eauto. exact (a_dec i L H).
Qed.

Definition arr_shape (L : lev) (n : Z) : list Z := ceil_div n (prodZ (map d_array (l_mids L))) :: map d_array (l_mids L ++ [l_dy L; l_dx L]).
Lemma prodA_pos i L : nth_error Ls i = Some L -> 0 < prodZ (map d_array (l_mids L)).
Proof.
  intros H. destruct (a_good i L H) as [G _]. pose proof (g_f _ _ _ _ _ _ _ _ _ _ _ _ _ _ G) as Hf. destruct Hf as [? ? q ? ? ? ? ?]. apply Forall_app in q as [q _].
  apply prodZ_pos. apply Forall_map. eapply Forall_impl; [|exact q]. intros d (X & _). exact X.
Qed.
Lemma a_level_comp i L : nth_error Ls i = Some L -> c_comp (l_cfg L) = option_map blosc_of (st_comp st) /\ l_t L = u_t u.
Proof. intros H. destruct (a_good i L H) as [G EL]. split; [exact (g_comp _ _ _ _ _ _ _ _ _ _ _ _ _ _ G)|rewrite EL; reflexivity]. Qed.
Lemma ceil_nonneg n p : 0 <= n -> 0 < p -> 0 <= ceil_div n p.
Proof. intros. unfold ceil_div. apply Z.div_pos; lia. Qed.

Lemma a_doc2 i L : st_version st = 2 -> nth_error Ls i = Some L -> let Fi := u_frames u F i in Fi <> [] ->
  exists c, key u groups (dec (Z.of_nat i) ++ "/.zarray")%string = Some c /\
    json_of c = Some (jval (zarray_json (ceil_div (zlen Fi) (prodZ (map d_array (l_mids L)))) (l_ds L) (u_t u) (option_map blosc_of (st_comp st)))).
Proof.
  intros V H Fi NE. destruct (a_ok i L H) as [OK LV]. pose proof (a_final i L H) as FIN. destruct (a_good i L H) as [G EL]. destruct (a_level_comp i L H) as [EC ET].
  unfold v3 in *. rewrite V in OK, FIN. change (2 =? 3) with false in *. destruct FIN as (_ & FIN & _). specialize (FIN NE).
  exists (l_D false L (zlen Fi)). split.
  - unfold key. fold E. fold tr. refine (eq_trans _ FIN). unfold mloc. rewrite (lo_bk _ _ _ _ _ _ OK), (lo_root _ _ _ _ _ _ OK). cbn [meta_comps join_path].
    change (c_level (l_cfg L)) with (l_level L). rewrite LV, !sapp_assoc. destruct (u_bk u); reflexivity.
  - unfold l_D, doc. rewrite EC, ET. apply dump_reads. apply (zarray_wf _ (u_bpp u)).
    + exact (g_f _ _ _ _ _ _ _ _ _ _ _ _ _ _ G).
    + apply ceil_nonneg; [apply zlen_nonneg|apply (prodA_pos i L H)].
    + exact a_compos.
Qed.
Lemma a_doc3 i L k : st_version st = 3 -> nth_error Ls i = Some L -> let Fi := u_frames u F i in
  (zlen Fi mod l_P L <> 0 /\ k = zlen Fi \/ zlen Fi mod l_P L = 0 /\ l_PP L <= zlen Fi /\ k = zlen Fi / l_PP L * l_PP L) ->
  exists c, key u groups ("meta/root/" ++ dec (Z.of_nat i) ++ ".array.json")%string = Some c /\
    json_of c = Some (jval (array_json (ceil_div k (prodZ (map d_array (l_mids L)))) (l_ds L) (u_t u) (option_map blosc_of (st_comp st)))).
Proof.
  intros V H Fi K. destruct (a_ok i L H) as [OK LV]. pose proof (a_final i L H) as FIN. destruct (a_good i L H) as [G EL]. destruct (a_level_comp i L H) as [EC ET].
  unfold v3 in *. rewrite V in OK, FIN. change (3 =? 3) with true in *. destruct FIN as (_ & _ & _ & M1 & M2 & _). fold Fi in M1, M2.
  assert (K0 : 0 <= k).
  { destruct K as [[_ ->]|(_ & K1 & ->)]; [apply zlen_nonneg|]. pose proof (g_f _ _ _ _ _ _ _ _ _ _ _ _ _ _ G) as Hf. destruct (g_s _ _ _ _ _ _ _ _ _ _ _ _ _ _ G) as [Hs _]; [rewrite V; reflexivity|].
    assert (0 < l_PP L). { unfold l_PP, l_P. destruct Hf, Hs. pose proof (prodA_pos i L H). apply Z.mul_pos_pos; [apply Z.mul_pos_pos; lia|lia]. }
    apply Z.mul_nonneg_nonneg; [apply Z.div_pos; lia|lia]. }
  assert (FK : content E tr (mloc (l_cfg L) true) = Some (l_D true L k)).
  { destruct K as [[K1 ->]|(K1 & K2 & ->)]; auto. }
  exists (l_D true L k). split.
  - unfold key. fold E. fold tr. refine (eq_trans _ FK). unfold mloc. rewrite (lo_bk _ _ _ _ _ _ OK), (lo_root _ _ _ _ _ _ OK). cbn [meta_comps join_path].
    change (c_level (l_cfg L)) with (l_level L). rewrite LV, !sapp_assoc. cbn [append]. destruct (u_bk u); reflexivity.
  - unfold l_D, doc. rewrite EC, ET. apply dump_reads. destruct (g_s _ _ _ _ _ _ _ _ _ _ _ _ _ _ G) as [Hs _]; [rewrite V; reflexivity|]. apply (array_wf _ (u_bpp u)); auto.
    + exact (g_f _ _ _ _ _ _ _ _ _ _ _ _ _ _ G).
    + apply ceil_nonneg; [auto|apply (prodA_pos i L H)].
    + exact a_compos.
Qed.

(** *** group documents *)
Lemma axis_wf b d : jwf (axis_json b d).
Proof. destruct b; cbn; auto. Qed.
Lemma dataset_wf i sc : Forall (fun z => 0 <= z) sc -> jwf (dataset_json i sc).
Proof.
  intros H. unfold dataset_json. cbn [jwf snd]. split; [|auto]. split; [|exact I]. split; [|auto]. change (jwf (JArr (map JDbl sc))). apply jwf_arr. unfold lwf. apply Forall_map. exact H.
Qed.
Lemma multiscale_wf ds n : jwf (multiscale_json ds n).
Proof.
  unfold multiscale_json. apply jwf_arr. constructor; [|constructor]. apply jwf_obj. unfold mwf. apply Forall_app. split.
  - constructor; [|constructor; [|constructor]]; cbn [snd].
    + unfold axes_json. apply jwf_arr. unfold lwf. apply Forall_app. split; apply Forall_map, Forall_forall; intros; apply axis_wf.
    + apply jwf_arr. constructor.
      * apply dataset_wf. apply Forall_map, Forall_forall. intros; lia.
      * apply Forall_map, Forall_forall. intros i _. apply dataset_wf. assert (0 <= 2 ^ Z.of_nat i) by (apply Z.pow_nonneg; lia). constructor; auto. apply Forall_app. split; [|auto].
        apply Forall_forall. intros z Hz. apply repeat_spec in Hz. lia.
  - apply Forall_app. split; [|constructor; [exact I|constructor]]. destruct (Nat.ltb 1 n); [|constructor]. constructor; [cbn; repeat split; lia|]. constructor; [exact I|constructor].
Qed.

Lemma a_doc_at k c : In (k, c) (docs_of E v3 (u_L0 u) (u_Lr u) (u_custom u)) -> c <> [] \/ u_bk u = None -> key u groups k = Some c.
Proof.
  intros Hin Hc. destruct a_docs as [w0 D]. rewrite Forall_forall in D. specialize (D (k, c) Hin). unfold doc_stored in D. cbn [fst snd] in D.
  assert (X : content E tr (kloc (u_root u) (u_bk u) k) = Some c).
  { destruct c as [|z c]; destruct (u_bk u); cbn [andb] in D; auto. destruct Hc as [Hc|Hc]; [congruence|discriminate]. }
  unfold key. fold E tr. refine (eq_trans _ X). unfold kloc, mpath. destruct (u_bk u); reflexivity.
Qed.
Lemma dump_nonempty j : jwf j -> text (dump j) <> [].
Proof.
  intros W H. pose proof (dump_starts j O W) as (c & t & X & _). unfold text, dump in H. rewrite X in H. discriminate.
Qed.
Lemma a_jdoc k j : jwf j -> In (k, text (dump j)) (docs_of E v3 (u_L0 u) (u_Lr u) (u_custom u)) -> exists c, key u groups k = Some c /\ json_of c = Some (jval j).
Proof.
  intros W H. exists (text (dump j)). split; [apply a_doc_at; auto; left; apply dump_nonempty; auto|]. apply dump_reads. exact W.
Qed.

Definition u_multi_json : json := multiscale_json (u_dims u) (List.length Ls).
Lemma a_zattrs : st_version st = 2 -> exists c, key u groups ".zattrs" = Some c /\ json_of c = Some (VObj [("multiscales", jval u_multi_json)]).
Proof.
  intros V. apply (a_jdoc ".zattrs" (JObj [("multiscales", u_multi_json)])).
  - apply jwf_obj. constructor; [apply multiscale_wf|constructor].
  - unfold docs_of, v3. rewrite V. left. reflexivity.
Qed.
Lemma a_zgroup : st_version st = 2 -> exists c, key u groups ".zgroup" = Some c /\ json_of c = Some (VObj [("zarr_format", vint 2)]).
Proof.
  intros V. apply (a_jdoc ".zgroup" (JObj [("zarr_format", JInt 2)])).
  - cbn. lia.
  - unfold docs_of, v3. rewrite V. right. left. reflexivity.
Qed.
Lemma a_group3 : st_version st = 3 -> exists c, key u groups "meta/root.group.json" = Some c /\ json_of c = Some (VObj [("attributes", VObj [("multiscales", jval u_multi_json)])]).
Proof.
  intros V. apply (a_jdoc _ (JObj [("attributes", JObj [("multiscales", u_multi_json)])])).
  - apply jwf_obj. constructor; [|constructor]. apply jwf_obj. constructor; [apply multiscale_wf|constructor].
  - unfold docs_of, v3. rewrite V. right. left. reflexivity.
Qed.
Lemma a_zarr3 : st_version st = 3 -> exists c, key u groups "zarr.json" = Some c /\ json_of c = Some (VObj [("extensions", VArr []); ("metadata_encoding", VStr "https://purl.org/zarr/spec/protocol/core/3.0");
    ("metadata_key_suffix", VStr ".json"); ("zarr_format", VStr "https://purl.org/zarr/spec/protocol/core/3.0")]).
Proof.
  intros V. apply (a_jdoc "zarr.json" (JObj [ ("extensions", JArr []); ("metadata_encoding", JStr "https://purl.org/zarr/spec/protocol/core/3.0"); ("metadata_key_suffix", JStr ".json"); ("zarr_format", JStr "https://purl.org/zarr/spec/protocol/core/3.0") ])).
  - cbn. auto.
  - unfold docs_of, v3. rewrite V. left. reflexivity.
Qed.
Lemma a_external : let k := if v3 then "meta/acquire.json" else "acquire.json" in u_custom u <> "" \/ u_bk u = None ->
  e_parse E (u_custom u) <> Some "" ->
  key u groups k = Some (if String.eqb (u_custom u) "" then [] else text (custom_text E (u_custom u))).
Proof.
  intros k H HE. apply a_doc_at.
  - unfold docs_of, k. fold (ext_doc E (u_custom u)). destruct v3; cbn; auto 10.
  - destruct H as [H|H]; [|right; exact H]. destruct (String.eqb_spec (u_custom u) ""); [congruence|]. left. unfold custom_text. destruct (e_parse E (u_custom u)) as [[|x t]|]; [congruence|discriminate|discriminate].
Qed.
End A.
