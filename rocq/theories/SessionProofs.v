(** A whole session on a machine where nothing fails. *)
Require Import ZArith List Bool String Ascii Lia Zify.
Require Import Verif.Base Verif.Spec Verif.Dim Verif.Limits Verif.Radix Verif.Json Verif.PathProofs Verif.World Verif.Writer
  Verif.SinkProofs Verif.CreateProofs Verif.FlushProofs Verif.LayoutProofs Verif.BufProofs Verif.WriterProofs
  Verif.LevelProofs Verif.Stream Verif.MetaProofs Verif.StreamProofs Verif.PyramidProofs Verif.Api Verif.SettingsSpec Verif.ValidProofs
  Verif.SessionSpec.
Import ListNotations.
Open Scope string_scope.
Open Scope list_scope.
Open Scope Z_scope.

Lemma half_ceil n : half n = ceil_div n 2.
Proof. rewrite half_eq. unfold ceil_div. f_equal. lia. Qed.

Lemma zapp {A} (a b : list A) : zlen (a ++ b) = zlen a + zlen b.
Proof. unfold zlen. rewrite app_length. lia. Qed.

Section U.
Variable u : use.
Hypothesis HU : fair_use u.
Let E := u_env u.
Let st := u_set u.
Let w := u_world u.
Let v3 := (st_version st =? 3).
Let root := u_root u.
Let bk := u_bk u.
Let bpp := u_bpp u.
Let dt := st_dtype st.
Let comp := option_map blosc_of (st_comp st).
Let m := List.length (u_mids u).
Let d0 := u_d0 u.
Let mids := u_mids u.
Let dy := u_dy u.
Let dx := u_dx u.
Let enc := u_enc u.
Let B0 := u_chunkb u.
Let mxl := u_most u.

Lemma u_calm : calm E.
Proof. destruct HU. constructor; auto. Qed.
Lemma u_dtr : 0 <= dt < dt_count.
Proof. destruct (fu_doc _ HU) as (_ & _ & H & _). unfold dt, st, dt_count. lia. Qed.

Definition u_t : string := match (if v3 then dtype_v3 else dtype_v2) dt with Some t => t | None => "" end.
Lemma u_Ht : (if v3 then dtype_v3 else dtype_v2) dt = Some u_t.
Proof.
  unfold u_t. pose proof u_dtr as R. destruct ((if v3 then dtype_v3 else dtype_v2) dt) eqn:X; auto. exfalso.
  unfold dt_count in R. assert (H : dt = 0 \/ dt = 1 \/ dt = 2 \/ dt = 3 \/ dt = 4 \/ dt = 5 \/ dt = 6 \/ dt = 7 \/ dt = 8 \/ dt = 9) by lia.
  destruct v3; decompose [or] H; match goal with K : dt = _ |- _ => rewrite K in X end; vm_compute in X; discriminate.
Qed.
Lemma u_cs : comp_small comp.
Proof.
  unfold comp, comp_small. destruct (fu_doc _ HU) as (_ & _ & _ & C & _). fold st in C. destruct (st_comp st) as [c|] eqn:X; cbn; [|discriminate].
  intros b H. injection H as <-. destruct (C c eq_refl) as (_ & A & _ & B & D). cbn.
  split; [|lia]. unfold codec_name. destruct (cs_codec c =? 2); [|destruct (cs_codec c =? 1)]; vm_compute; lia.
Qed.
Lemma u_B0_pos : 0 < B0.
Proof.
  destruct (fu_fits _ HU). unfold B0, u_chunkb, u_dims. apply Z.mul_pos_pos; [|lia]. apply prodZ_pos. constructor; [lia|]. apply DimProofs.inner_allpos_chk. auto.
Qed.
Lemma u_mxl : 0 <= mxl < 2 ^ 64.
Proof. pose proof u_B0_pos as H. unfold B0 in H. pose proof (fu_most _ HU). unfold mxl, u_most in *. destruct (st_comp (u_set u)); lia. Qed.
Lemma u_comp B : 0 < B <= B0 -> comp_ok E comp bpp B enc mxl.
Proof.
  intros H. pose proof (fu_codec _ HU) as C. unfold comp_ok, comp, mxl, u_most. fold st in C |- *. destruct (st_comp st) as [c|]; cbn.
  - intros raw Hr. destruct (C raw) as (A1 & A2 & _); [fold B0; lia|]. split; [exact A1|]. fold B0. unfold enc. lia.
  - destruct C as [C _]. split; [exact C|]. fold B0. lia.
Qed.
Lemma u_m : Z.of_nat m <= max_dims.
Proof. pose proof (fu_ndims _ HU) as H. unfold u_dims in H. cbn [List.length] in H. rewrite app_length in H. cbn [List.length] in H. unfold m, max_dims. lia. Qed.

Lemma u_commit : exists s0, commit st = Ok s0 /\ s_v3 s0 = v3 /\ s_root s0 = root /\ s_bucket s0 = bk /\ s_dtype s0 = dt /\ s_dims s0 = d0 :: mids ++ [dy; dx] /\
   s_multi s0 = st_multi st /\ s_custom s0 = (match st_meta st with Some x => trim x | None => "{}" end) /\ s_comp s0 = comp.
Proof.
  unfold commit. destruct (fu_dims _ HU) as (l & Hl & Hd). fold st in Hl. rewrite Hl, Hd. unfold make_dimensions, u_dims. cbn [List.length]. rewrite app_length. cbn [List.length].
  replace (Nat.ltb 2 (S (List.length (u_mids u) + 2))) with true by (symmetry; apply Nat.ltb_lt; lia). cbn [obind]. eexists. split; [reflexivity|]. cbn.
  split; auto. split; [|split; [|auto 10]].
  - destruct (fu_root _ HU) as (p & Hp & Ht). fold st in Hp. rewrite Hp. cbn. apply (trimmed_unique p); auto. apply trim_spec.
  - pose proof (fu_bk _ HU) as Hb. fold st in Hb. unfold bk. destruct (st_s3 st) as [x|]; cbn; [|auto]. destruct Hb as (b & t & Hx & Ht & ->). rewrite Hx. cbn. f_equal.
    apply (trimmed_unique b); auto. apply trim_spec.
Qed.
Lemma u_bucket : bk <> Some "".
Proof.
  destruct (fu_doc _ HU) as (_ & (p & _ & _ & X) & _). pose proof (fu_bk _ HU) as Hb. unfold bk. destruct (st_s3 (u_set u)) as [x|]; [|congruence].
  destruct X as (_ & _ & _ & b & t & A & B & C). destruct Hb as (b' & t' & A' & B' & ->). rewrite A in A'. injection A' as <-.
  rewrite (trimmed_unique _ _ _ B' B). intros H. injection H as ->. cbn in C. lia.
Qed.

Definition cfg0 : config := mkconfig (d0 :: mids ++ [dy; dx]) dt 0 bk root comp.
Lemma u_good : good v3 root bk comp m bpp dt mxl B0 cfg0 d0 mids dy dx.
Proof.
  constructor; auto; try exact (fu_fits _ HU); try exact (fu_epoch _ HU).
  - cbn. lia.
  - apply Z.le_refl.
  - intros V. unfold v3 in V. apply Z.eqb_eq in V. exact (fu_shards _ HU V).
Qed.

Definition u_L0 : lev := lev_of bpp mxl u_t enc cfg0 d0 mids dy dx.
Definition u_Lr : list lev := if st_multi st then levs bpp mxl u_t enc pyramid_fuel cfg0 d0 mids dy dx else [].

Lemma u_small0 : st_multi st = true -> small0 d0.
Proof. intros M. destruct (fu_multi _ HU M) as (A & _). exact A. Qed.

Lemma levs_len fuel : forall c d0 mids dy dx, (List.length (levs bpp mxl u_t enc fuel c d0 mids dy dx) <= fuel)%nat.
Proof. induction fuel as [|f IH]; intros; cbn; [lia|]. destruct (goes_on c); cbn; [apply le_n_S, IH|lia]. Qed.

Definition lg := lgood v3 root bk comp m bpp dt mxl B0 u_t enc.
Lemma u_lgood i L : nth_error (u_L0 :: u_Lr) i = Some L -> lev_ok E v3 root bk m L /\ l_level L = Z.of_nat i.
Proof.
  assert (GL : forall c a b c0 d, good v3 root bk comp m bpp dt mxl B0 c a b c0 d -> lev_ok E v3 root bk m (lev_of bpp mxl u_t enc c a b c0 d)).
  { intros. eapply good_lev; eauto using u_Ht, u_cs, u_comp, u_m; try apply HU; try apply u_mxl. }
  unfold u_Lr. destruct (st_multi st) eqn:M.
  - intros H. destruct (levs_linked v3 root bk comp m bpp dt mxl B0 u_t enc (proj1 u_mxl) pyramid_fuel cfg0 d0 mids dy dx u_good (u_small0 M)) as [A _].
    destruct (A i L H) as [(G & EL & _) B]. split; [rewrite EL; auto|]. rewrite B. cbn. lia.
  - destruct i as [|i]; [|destruct i; discriminate]. cbn [nth_error]. intros H. injection H as <-. split; [apply GL, u_good|reflexivity].
Qed.

Lemma u_space : d_type dy = ty_space /\ d_type dx = ty_space.
Proof.
  destruct (fu_doc _ HU) as (_ & _ & _ & _ & _ & l & init & y & x & Hl & El & Hi & Ty & Tx & _).
  destruct (fu_dims _ HU) as (l' & Hl' & Hd). rewrite Hl in Hl'. injection Hl' as <-. subst l. unfold u_dims in Hd. rewrite map_app in Hd. cbn [map] in Hd.
  assert (X : map dim_of init ++ [dim_of y; dim_of x] = (u_d0 u :: u_mids u) ++ [u_dy u; u_dx u]) by exact Hd.
  change (map dim_of init ++ [dim_of y; dim_of x]) with (map dim_of init ++ [dim_of y] ++ [dim_of x]) in X.
  change ((u_d0 u :: u_mids u) ++ [u_dy u; u_dx u]) with ((u_d0 u :: u_mids u) ++ [u_dy u] ++ [u_dx u]) in X.
  rewrite !app_assoc in X. apply app_inj_tail in X as [X X2]. apply app_inj_tail in X as [_ X1]. unfold dy, dx. rewrite <- X1, <- X2. cbn. auto.
Qed.
Lemma down_space d : d_type d = ty_space -> 0 < d_array d -> d_type (down_dim d) = ty_space /\ d_array (down_dim d) = half (d_array d).
Proof.
  intros A B. unfold down_dim. rewrite A. replace (ty_space =? ty_channel) with false by reflexivity.
  replace (d_array d =? 0) with false by (symmetry; apply Z.eqb_neq; lia). cbn. auto.
Qed.

(** all levels have space rows and columns, and their images fit *)
Definition img_ok (L : lev) : Prop := d_type (l_dy L) = ty_space /\ d_type (l_dx L) = ty_space /\ scale_fits (l_bpp L) (d_array (l_dx L)) (d_array (l_dy L)) /\ l_bpp L = bpp.
Lemma u_links : st_multi st = true ->
  (forall i L, nth_error (u_L0 :: u_Lr) i = Some L -> lg L) /\
  (forall i L L', nth_error (u_L0 :: u_Lr) i = Some L -> nth_error (u_L0 :: u_Lr) (S i) = Some L' -> linked L L').
Proof.
  intros M. unfold u_Lr. rewrite M.
  destruct (levs_linked v3 root bk comp m bpp dt mxl B0 u_t enc (proj1 u_mxl) pyramid_fuel cfg0 d0 mids dy dx u_good (u_small0 M)) as [A B].
  split; auto. intros i L H. apply (A i L H).
Qed.
Lemma u_imgs : st_multi st = true -> forall i L, nth_error (u_L0 :: u_Lr) i = Some L -> img_ok L.
Proof.
  intros M. destruct (u_links M) as [A B]. induction i as [|i IH]; intros L H.
  - cbn in H. injection H as <-. destruct u_space as [Y X]. unfold img_ok. cbn [u_L0 l_dy l_dx l_bpp lev_of].
    split; [exact Y|]. split; [exact X|]. split; [|reflexivity].
    destruct (fu_fits _ HU) as [q1 q2 q3 q4 q5 q6 q7 q8]. apply Forall_app in q3 as [_ q3]. inversion q3 as [|? ? (a1 & _) q3']; subst. inversion q3' as [|? ? (a2 & _) _]; subst.
    destruct (fu_multi _ HU M) as (_ & (i1 & i2 & i3) & _). rewrite <- ?half_ceil in i3. unfold scale_fits, bpp, dx, dy. auto.
  - assert (Hlt : (i < List.length (u_L0 :: u_Lr))%nat). { assert (S i < List.length (u_L0 :: u_Lr))%nat by (apply nth_error_Some; congruence). lia. }
    destruct (nth_error (u_L0 :: u_Lr) i) as [K|] eqn:HK; [|apply nth_error_None in HK; lia].
    destruct (IH K eq_refl) as (y & x & f & b). destruct (B i K L HK H) as (b' & _ & _ & _ & ly & lx). destruct (A i K HK) as (G & _ & S0).
    unfold img_ok. rewrite ly, lx, b'. destruct f as (f1 & f2 & f3 & f4).
    destruct (down_space _ y ltac:(lia)) as [y1 _]. destruct (down_space _ x ltac:(lia)) as [x1 _].
    split; [exact y1|]. split; [exact x1|]. split; [|exact b].
    eapply (scale_down (l_bpp K) (l_d0 K) (l_mids K)); [rewrite b; exact (g_f _ _ _ _ _ _ _ _ _ _ _ _ _ _ G)|unfold scale_fits; auto].
Qed.
Lemma u_step i L L' : nth_error (u_L0 :: u_Lr) i = Some L -> nth_error (u_L0 :: u_Lr) (S i) = Some L' ->
  l_bpp L' = l_bpp L /\ d_array (l_dy L') = half (d_array (l_dy L)) /\ d_array (l_dx L') = half (d_array (l_dx L)) /\
  scale_fits (l_bpp L) (d_array (l_dx L)) (d_array (l_dy L)) /\ dt <> dt_int8.
Proof.
  intros H H'. destruct (st_multi st) eqn:M.
  2:{ unfold u_Lr in H'. rewrite M in H'. cbn in H'. destruct i; discriminate. }
  destruct (u_links M) as [A B]. destruct (B i L L' H H') as (b' & _ & _ & _ & ly & lx). destruct (u_imgs M i L H) as (y & x & f & b).
  split; auto. destruct (fu_multi _ HU M) as (_ & _ & D & _). rewrite ly, lx. destruct f as (f1 & f2 & f3 & f4).
  destruct (down_space _ y ltac:(lia)) as [_ y1]. destruct (down_space _ x ltac:(lia)) as [_ x1]. repeat split; auto; lia.
Qed.

Lemma u_writers s0 b : s_v3 s0 = v3 -> s_root s0 = root -> s_bucket s0 = bk -> s_dtype s0 = dt -> s_dims s0 = d0 :: mids ++ [dy; dx] -> s_multi s0 = st_multi st -> s_comp s0 = comp ->
  exists ws, create_writers (set_fbuf s0 b 0) = Ok ws /\ Forall2 (fun L a => make_writer v3 (l_cfg L) = Ok a) (u_L0 :: u_Lr) ws.
Proof.
  intros A1 A2 A3 A4 A5 A6 A7. unfold create_writers.
  assert (BC : base_config (set_fbuf s0 b 0) = cfg0) by (unfold base_config, cfg0; cbn; rewrite A2, A3, A4, A5, A7; reflexivity). rewrite BC.
  change (s_v3 (set_fbuf s0 b 0)) with (s_v3 s0). change (s_multi (set_fbuf s0 b 0)) with (s_multi s0). rewrite A1, A6.
  destruct (make_writer_ok v3 root bk comp m bpp dt mxl B0 u_t u_Ht cfg0 d0 mids dy dx u_good) as [a Ha]. rewrite Ha. cbn [obind]. unfold u_Lr. destruct (st_multi st) eqn:M.
  - assert (En : enough pyramid_fuel cfg0 = true).
    { destruct (fu_multi _ HU M) as (Z0 & _ & _ & d & Hin & Hs). apply (enough_40 cfg0 d); auto.
      destruct Hin as [<-|Hin]; [lia|]. pose proof (fit_inner _ _ _ _ _ (fu_fits _ HU)) as q. rewrite Forall_forall in q. destruct (q d Hin) as (q1 & q2 & q3). lia. }
    destruct (pyramid_ok v3 root bk comp m bpp dt mxl B0 u_t enc u_Ht (proj1 u_mxl) pyramid_fuel cfg0 d0 mids dy dx u_good (u_small0 M) En) as (ws & R & F).
    rewrite R. cbn [obind]. exists (a :: ws). split; auto.
  - exists [a]. split; auto.
Qed.

Lemma text_len x : zlen (text x) = Z.of_nat (String.length x).
Proof. apply bytes_len. Qed.
Lemma multi_doc_len pre post : 
  (forall x, String.length (dump (post x)) <= String.length (dump_at pre x) + 100)%nat -> (pre <= 8)%nat ->
  zlen (text (dump (post (multiscale_json (d0 :: mids ++ [dy; dx]) (List.length (u_L0 :: u_Lr)))))) < part_size.
Proof.
  intros Hp Hpre. rewrite text_len.
  assert (NW : (List.length (u_L0 :: u_Lr) <= 41)%nat).
  { cbn [List.length]. unfold u_Lr. destruct (st_multi st); cbn [List.length]; [|lia]. pose proof (levs_len pyramid_fuel cfg0 d0 mids dy dx) as X. unfold pyramid_fuel in *. lia. }
  assert (LD : (2 < List.length (d0 :: mids ++ [dy; dx]))%nat) by (cbn [List.length]; rewrite app_length; cbn [List.length]; lia).
  pose proof (multiscale_len pre (d0 :: mids ++ [dy; dx]) _ Hpre NW LD (fu_names _ HU)) as M.
  pose proof (fu_ndims _ HU) as ND. change (u_dims u) with (d0 :: mids ++ [dy; dx]) in ND.
  specialize (Hp (multiscale_json (d0 :: mids ++ [dy; dx]) (List.length (u_L0 :: u_Lr)))).
  change part_size with 5242880. lia.
Qed.

Definition u_custom : string := match st_meta st with Some x => trim x | None => "{}" end.
Lemma u_base_doc : zlen (base_doc v3 u_L0 u_Lr) < part_size.
Proof.
  unfold base_doc. destruct v3.
  - vm_compute. reflexivity.
  - change (l_ds u_L0) with (d0 :: mids ++ [dy; dx]).
    apply (multi_doc_len 4 (fun x => JObj [("multiscales", x)])); [|lia]. intros x. unfold dump. cbn [dump_at plus]. lens2. lia.
Qed.
Lemma u_group_doc : zlen (group_doc v3 u_L0 u_Lr) < part_size.
Proof.
  unfold group_doc. destruct v3.
  - change (l_ds u_L0) with (d0 :: mids ++ [dy; dx]).
    apply (multi_doc_len 8 (fun x => JObj [("attributes", JObj [("multiscales", x)])])); [|lia]. intros x. unfold dump. cbn [dump_at plus]. lens2. lia.
  - vm_compute. reflexivity.
Qed.
Lemma u_docs_fit : docs_fit E v3 bk u_L0 u_Lr u_custom.
Proof.
  pose proof u_base_doc as Bd. pose proof u_group_doc as Gd. pose proof part_lt as PL.
  assert (EX : zlen (ext_doc E u_custom) < 2 ^ 64).
  { unfold ext_doc. destruct (String.eqb u_custom ""); [reflexivity|]. rewrite text_len. unfold custom_text. destruct (e_parse E u_custom) as [t|] eqn:P; [exact (fu_meta _ HU _ _ P)|reflexivity]. }
  split; [|right; exact Gd]. unfold docs_of. destruct v3; repeat (constructor; [cbn [snd]; try lia|]); constructor.
Qed.

(** the frames of level i *)
Fixpoint u_frames (F : list (list Z)) (i : nat) : list (list Z) :=
  match i with O => F | S j => up u_L0 u_Lr dt (S j) (u_frames F j) end.

Let SINV := sinv E v3 root bk u_L0 u_Lr dt.

Lemma u_fb : l_fb u_L0 = u_frame u.
Proof. reflexivity. Qed.

Lemma u_appends groups : forall Fs docs s w1, SINV Fs docs s w1 ->
  Forall (Forall (fun f => zlen f = u_frame u)) groups -> zlen (nth 0 Fs []) + zlen (List.concat groups) < 2 ^ 32 ->
  exists s' w' Fs', api_appends E (calls groups) (s, w1) = ((s', w'), Ok (map (fun c => (st_success, Some (zlen c))) (calls groups))) /\
    SINV Fs' docs s' w' /\ nth 0 Fs' [] = nth 0 Fs [] ++ List.concat groups /\ extends (st_ev v3 root bk m u_L0 u_Lr) w1 w'.
Proof.
  induction groups as [|g groups IH]; intros Fs docs s w1 I HF HL.
  - exists s, w1, Fs. split; [reflexivity|]. split; auto. split; [cbn; rewrite app_nil_r; reflexivity|apply extends_refl].
  - inversion HF as [|? ? Hg HF']; subst. cbn [List.concat] in HL. rewrite zapp in HL. pose proof (zlen_nonneg (List.concat groups)) as N0.
    destruct (append_ok E u_calm v3 root bk m (proj1 (fu_path _ HU)) (proj2 (fu_path _ HU)) u_bucket u_L0 u_Lr dt u_lgood (fu_bpp _ HU) u_dtr u_step g Fs docs s w1 I Hg ltac:(lia))
      as (s1 & w2 & Fs1 & R & I1 & N1 & X1).
    destruct (IH Fs1 docs s1 w2 I1 HF') as (s' & w' & Fs' & R' & I' & N' & X'). 
    { rewrite N1, zapp, <- Z.add_assoc. exact HL. }
    exists s', w', Fs'. split; [|split; [exact I'|split]].
    + cbn [calls map api_appends]. rewrite (bind_ok _ _ _ (s1, w2) (st_success, Some (zlen (List.concat g)))).
      2:{ unfold api_append, catchM. rewrite (bind_ok _ _ _ _ _ R). reflexivity. }
      rewrite (bind_ok _ _ _ _ _ R'). reflexivity.
    + rewrite N', N1. cbn [List.concat]. rewrite app_assoc. reflexivity.
    + eapply extends_trans; eauto.
Qed.

Lemma u_synced Fs docs s w1 F : SINV Fs docs s w1 -> nth 0 Fs [] = F -> forall i L, nth_error (u_L0 :: u_Lr) i = Some L -> nth i Fs [] = u_frames F i.
Proof.
  intros I N0. induction i as [|i IH]; intros L HL; [exact N0|].
  destruct (s_multi s) eqn:M.
  - destruct (si_sync _ _ _ _ _ _ _ _ _ _ _ I M) as [_ S2]. assert (Hi : (S i < List.length (u_L0 :: u_Lr))%nat) by (apply nth_error_Some; congruence).
    destruct (S2 (S i) ltac:(lia)) as [-> _]. cbn [u_frames]. replace (S i - 1)%nat with i by lia.
    destruct (nth_error (u_L0 :: u_Lr) i) as [K|] eqn:HK; [|apply nth_error_None in HK; lia]. rewrite (IH K eq_refl). reflexivity.
  - rewrite (si_multi _ _ _ _ _ _ _ _ _ _ _ I M) in HL. destruct i; discriminate.
Qed.

Theorem session_ok groups : whole_frames u groups ->
  exists w0 w', session E st (calls groups) w = (w', Ok (Some (map (fun c => (st_success, Some (zlen c))) (calls groups), true))) /\
    (forall i L, nth_error (u_L0 :: u_Lr) i = Some L -> final E v3 bk L (u_frames (List.concat groups) i) (w_trace w')) /\
    Forall (doc_stored E root bk (w_trace w0) (w_trace w')) (docs_of E v3 u_L0 u_Lr u_custom) /\
    (exists evs, w_trace w' = w_trace w ++ evs /\ Forall (fun e => all_ev v3 root bk m u_L0 u_Lr e \/ e = ERemoveAll root) evs) /\
    (bk = None -> exists w1 evs, fresh E root w1 /\ w_trace w' = w_trace w1 ++ evs).
Proof.
  intros [HF HL].
  destruct (validate_settings_spec E w st (fu_typed _ HU) (fu_strings _ HU)) as (b & HV & Hb).
  assert (b = true) as -> by (apply Hb; exact (fu_doc _ HU)).
  destruct u_commit as (s0 & HC & C1 & C2 & C3 & C4 & C5 & C6 & C7 & C8).
  destruct (u_writers s0 [] C1 C2 C3 C4 C5 C6 C8) as (ws & HW & F2).
  assert (HW' : forall b, create_writers (set_fbuf s0 b 0) = Ok ws) by (intros; exact HW).
  assert (TR : bk = None -> tree E w). { intros _ d p A B C D. exact (fu_disk _ HU d p A B D C). }
  assert (ML : s_multi s0 = false -> u_Lr = []) by (rewrite C6; intros M; unfold u_Lr; rewrite M; reflexivity).
  assert (DF : docs_fit E v3 bk u_L0 u_Lr (s_custom s0)) by (rewrite C7; exact u_docs_fit).
  destruct (new_stream_ok E u_calm v3 root bk m (proj1 (fu_path _ HU)) (proj2 (fu_path _ HU)) u_bucket u_L0 u_Lr dt u_lgood (fu_bpp _ HU) st s0 ws w HV HC C1 C2 C3 C4 C5 ML HW' F2 DF (fu_err _ HU) TR (fu_conns _ HU))
    as (s & w1 & R & I & (ev1 & V1 & W1) & FR).
  rewrite C7 in I. change (match st_meta st with Some x => trim x | None => "{}" end) with u_custom in I.
  assert (N0 : nth 0 (repeat (@nil (list Z)) (List.length (u_L0 :: u_Lr))) [] = []) by reflexivity.
  destruct (u_appends groups _ _ s w1 I HF) as (s2 & w2 & Fs & R2 & I2 & N2 & X2). { rewrite N0. exact HL. }
  rewrite N0 in N2. cbn [app] in N2.
  destruct (group_doc_ok E v3 root bk m u_L0 u_Lr u_lgood s2 (si_v3 _ _ _ _ _ _ _ _ _ _ _ I2) (si_dims _ _ _ _ _ _ _ _ _ _ _ I2)) as [G1 G2].
  { destruct (si_lv _ _ _ _ _ _ _ _ _ _ _ I2) as (A & _). exact A. }
  destruct (finalize_ok E u_calm v3 root bk m (proj1 (fu_path _ HU)) (proj2 (fu_path _ HU)) u_bucket u_L0 u_Lr dt u_lgood Fs _ s2 w2 1%nat I2) as (s3 & w0 & w' & R3 & FIN & DOC & X3).
  - rewrite G2. rewrite G1. cbn [fst]. unfold docs_of. destruct v3; reflexivity.
  - exact (proj1 u_docs_fit).
  - right. rewrite G2. exact u_group_doc.
  - exists w0, w'. split; [|split; [|split; [exact DOC|split]]].
    + unfold session. rewrite (bind_ok _ _ _ w1 (Some s)).
      2:{ unfold api_create, catchM. rewrite (bind_ok _ _ _ _ _ R). reflexivity. }
      rewrite (bind_ok _ _ _ _ _ R2). unfold api_destroy. rewrite (bind_ok _ _ _ _ _ R3). reflexivity.
    + intros i L Hi. rewrite <- (u_synced Fs _ s2 w2 _ I2 N2 i L Hi). apply FIN. exact Hi.
    + assert (X2' : extends (all_ev v3 root bk m u_L0 u_Lr) w1 w2) by (eapply extends_impl; [|exact X2]; intros e He'; left; exact He'). destruct (extends_trans _ _ _ _ X2' X3) as (ev2 & V2 & W2 & _). exists (ev1 ++ ev2). rewrite V2, V1, app_assoc. split; [reflexivity|]. apply Forall_app. split; [exact W1|].
      eapply Forall_impl; [|exact W2]. intros e He'. left. exact He'.
    + intros B. destruct (FR B) as (w3 & evs & F3 & V3). destruct X2 as (ev2 & V2 & _), X3 as (ev3 & V4 & _). exists w3, (evs ++ ev2 ++ ev3). split; [exact F3|].
      rewrite V4, V2, V3, !app_assoc. reflexivity.
Qed.
End U.
