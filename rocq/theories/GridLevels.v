(** The levels of a stream, for C09 and C53. *)
Require Import ZArith List Bool String Ascii Lia.
Require Import Verif.Base Verif.Spec Verif.Dim Verif.Limits Verif.Radix Verif.DimProofs Verif.ShardProofs Verif.PathProofs Verif.Json Verif.World Verif.Writer Verif.LayoutProofs Verif.FrameProofs Verif.GridProofs Verif.Stream Verif.Api Verif.FrameStream Verif.StreamProofs Verif.PyramidProofs Verif.SessionSpec Verif.SessionProofs Verif.PyramidSpec Verif.LevelsProofs Verif.SafeStream Verif.SafeSpec Verif.SettingsSpec Verif.ValidProofs Verif.LayoutSpec Verif.ItemProofs Verif.GridStream Verif.GridSpec Verif.FrameSpec.
Import ListNotations.
Open Scope string_scope. Open Scope list_scope. Open Scope Z_scope.

(** [g] is level [k] of the array with dimensions [d0 :: mids ++ [dy; dx]] and configuration [c] *)
Record is_geo (c : config) (d0 : dim) (mids : list dim) (dy dx : dim) (k : nat) (g : geo) : Prop := {
  ig_0 : g_0 g = at_level k d0; ig_m : g_m g = map (at_level k) mids; ig_y : g_y g = at_level k dy; ig_x : g_x g = at_level k dx;
  ig_d : c_dims (g_c g) = g_0 g :: g_m g ++ [g_y g; g_x g];
  ig_l : c_level (g_c g) = Z.of_nat k; ig_r : c_root (g_c g) = c_root c; ig_b : c_bucket (g_c g) = c_bucket c }.
Section L.
Variables (c : config) (d0 : dim) (mids : list dim) (dy dx : dim).
Let ds := d0 :: mids ++ [dy; dx].
Hypothesis Hp : Forall (fun d => 0 <= d_array d /\ 0 < d_chunk d) ds.
Lemma geo_next k g : is_geo c d0 mids dy dx k g -> is_geo c d0 mids dy dx (S k) (down_geo g).
Proof.
  intros [H1 H2 H3 H4 H5 H6 H7 H8]. rewrite Forall_forall in Hp.
  assert (D : forall d, In d ds -> down_dim (at_level k d) = at_level (S k) d) by (intros d Hd; destruct (Hp d Hd); apply down_at; auto).
  split; cbn [down_geo g_0 g_m g_y g_x g_c down_cfg with_dims c_dims c_level c_root c_bucket].
  - rewrite H1. apply D. left; reflexivity.
  - rewrite H2, map_map. apply map_ext_in. intros d Hd. apply D. right. apply in_or_app. auto.
  - rewrite H3. apply D. right. apply in_or_app. right. left; reflexivity.
  - rewrite H4. apply D. right. apply in_or_app. right. right. left; reflexivity.
  - rewrite H5. cbn [map]. rewrite map_app. reflexivity.
  - rewrite H6. lia.
  - exact H7.
  - exact H8.
Qed.
Lemma geos_nth : forall fuel k g, is_geo c d0 mids dy dx k g -> forall j g', nth_error (geos fuel g) j = Some g' -> is_geo c d0 mids dy dx (S k + j) g'.
Proof.
  induction fuel as [|f IH]; intros k g H j g' N; cbn [geos] in N; [destruct j; discriminate|]. pose proof (geo_next k g H) as H'. destruct j as [|j]; cbn [nth_error] in N.
  - injection N as <-. rewrite Nat.add_0_r. exact H'.
  - destruct (goes_on (g_c g)); [|destruct j; discriminate]. replace (S k + S j)%nat with (S (S k) + j)%nat by lia. apply (IH (S k) (down_geo g)); auto.
Qed.
Lemma geos_last : forall fuel k g, is_geo c d0 mids dy dx k g -> untouched ds k -> enough fuel (g_c g) = true -> last_level ds (k + List.length (geos fuel g)).
Proof.
  induction fuel as [|f IH]; intros k g H H0 He; [discriminate|]. cbn [enough geos] in *.
  assert (Hc : c_dims (g_c g) = map (at_level k) ds). { destruct H as [H1 H2 H3 H4 H5 _ _ _]. rewrite H5, H1, H2, H3, H4. unfold ds. cbn [map]. rewrite map_app. reflexivity. }
  destruct (goes_on_spec (g_c g) ds k Hc Hp H0) as [G1 G2]. destruct (goes_on (g_c g)) eqn:G.
  - specialize (IH (S k) (down_geo g) (geo_next k g H) (G1 eq_refl) He). cbn [List.length]. replace (k + S (List.length (geos f (down_geo g))))%nat with (S k + List.length (geos f (down_geo g)))%nat by lia. exact IH.
  - cbn [List.length]. replace (k + 1)%nat with (S k) by lia. split; [lia|]. split; [auto|]. intros j Hj. apply H0. lia.
Qed.
End L.
Lemma small0_down d : small0 d -> small0 (down_dim d).
Proof.
  intros S0. unfold small0 in *. unfold down_dim. destruct (d_type d =? ty_channel); auto. destruct (Z.eqb_spec (d_array d) 0); cbn; [lia|]. rewrite half_ceil.
  assert (0 <= ceil_div (d_array d) 2 <= d_array d). { split; [unfold ceil_div; apply Z.div_pos; lia|apply ceil_2; lia]. } lia.
Qed.
Lemma geos_gok v3 fs bpp dt : forall fuel g, gok v3 fs bpp dt g -> small0 (g_0 g) -> Forall (gok v3 fs bpp dt) (geos fuel g).
Proof.
  induction fuel as [|f IH]; intros g G S0; cbn [geos]; [constructor|]. constructor; [apply geo_down; auto|]. destruct (goes_on (g_c g)); [|constructor]. apply IH; [apply geo_down; auto|apply small0_down; auto].
Qed.
Lemma pyramid_writers v3 fs bpp dt : forall fuel g ws, gok v3 fs bpp dt g -> small0 (g_0 g) -> pyramid fuel v3 (g_c g) = Ok ws -> Forall2 (fun g a => make_writer v3 (g_c g) = Ok a) (geos fuel g) ws.
Proof.
  induction fuel as [|f IH]; intros g ws G S0 P; cbn [pyramid geos] in *; [discriminate|].
  rewrite (geo_step _ _ _ _ g G S0) in P. cbn [obind] in P. change (down_cfg (g_c g)) with (g_c (down_geo g)) in P.
  destruct (make_writer v3 (g_c (down_geo g))) as [a| | |] eqn:A; try discriminate. cbn [obind] in P. destruct (goes_on (g_c g)).
  - destruct (pyramid f v3 (g_c (down_geo g))) as [l| | |] eqn:P2; try discriminate. injection P as <-. constructor; [exact A|]. apply IH; [apply geo_down; auto|apply small0_down; auto|exact P2].
  - injection P as <-. constructor; [exact A|constructor].
Qed.

Lemma in_bounds_nonneg ns cc : in_bounds ns cc -> Forall (fun x => 0 <= x) cc.
Proof. revert cc. induction ns; intros [|c cc]; cbn; intros H; try tauto; constructor; [lia|apply IHns; tauto]. Qed.

(** *** All the paths of a session *)
Section Paths.
Variables (E : env) (st : settings) (l : list udim) (d0 : dim) (mids : list dim) (dy dx : dim) (bpp : Z) (bucket : option string) (root : string) (n : Z) (strict : bool).
Let v3 := st_version st =? 3.
Let ds := d0 :: mids ++ [dy; dx].
Hypothesis Hl : st_dims st = Some l.
Hypothesis Hdim : map dim_of l = ds.
Hypothesis Hbpp : bytes_of_type (st_dtype st) = Ok bpp.
Hypothesis Hf : fits bpp d0 mids dy dx.
Hypothesis Hs : st_version st = 3 -> fits_shards d0 mids dy dx.
Hypothesis Hmulti : Stream.st_multi st = true -> small0 d0 /\ exists d, In d ds /\ can_shrink d.
Hypothesis Hplace : place st = (bucket, root).
Hypothesis Hroot : root <> "" /\ (bucket = None -> String.prefix "file:" root = false).
Hypothesis Hn : n < 2 ^ 32.
(** frames of a level *)
Definition lim (i : nat) : Z := if strict then n / 2 ^ Z.of_nat i else n + 1.
Definition okp (p : string) : Prop := exists it, belongs st d0 mids dy dx lim it /\ p = where_is v3 root it.
Let fs := match st_s3 st with None => true | Some _ => false end.
Let g0 := gbase st d0 mids dy dx.
Let L := g0 :: glevels st d0 mids dy dx.
Lemma g0_ok : gok v3 fs bpp (st_dtype st) g0.
Proof.
  constructor; cbn; auto.
  - intros V. apply Hs. apply Z.eqb_eq. exact V.
  - unfold fs. destruct (st_s3 st); reflexivity.
Qed.
Lemma dims_pos : Stream.st_multi st = true -> Forall (fun d => 0 <= d_array d /\ 0 < d_chunk d) ds.
Proof.
  intros M. destruct (Hmulti M) as ((M1 & M2) & _). pose proof (fit_c0 _ _ _ _ _ Hf). constructor; [lia|]. eapply Forall_impl; [|exact (fit_inner _ _ _ _ _ Hf)]. intros d (A & B & C). lia.
Qed.
Lemma root_eq : c_root (g_c g0) = root /\ c_bucket (g_c g0) = bucket.
Proof. cbn. unfold place in Hplace. split; congruence. Qed.
Lemma g0_geo : is_geo (g_c g0) d0 mids dy dx 0 g0.
Proof. split; cbn; auto. rewrite (map_ext _ (fun d => d)) by (intros; apply at_0). rewrite map_id. reflexivity. Qed.
Lemma L_geo i g : nth_error L i = Some g -> is_geo (g_c g0) d0 mids dy dx i g /\ gok v3 fs bpp (st_dtype st) g /\ level_of st ds i.
Proof.
  destruct i as [|i]; intros H; [injection H as <-; split; [exact g0_geo|split; [exact g0_ok|left; reflexivity]]|]. unfold L in H. cbn [nth_error] in H. unfold glevels in H.
  revert H. case_eq (Stream.st_multi st); intros M H; [|destruct i; discriminate]. destruct (Hmulti M) as (M1 & d & M4 & M5). pose proof (dims_pos M) as DP.
  split; [exact (geos_nth (g_c g0) d0 mids dy dx DP pyramid_fuel 0 g0 g0_geo i g H)|]. split.
  - pose proof (geos_gok v3 fs bpp (st_dtype st) pyramid_fuel g0 g0_ok M1) as GG. rewrite Forall_forall in GG. apply GG. eapply nth_error_In; exact H.
  - right. split; [exact M|]. exists (List.length (geos pyramid_fuel g0)). split.
    + apply (geos_last (g_c g0) d0 mids dy dx DP pyramid_fuel 0 g0 g0_geo); [intros j Hj; lia|]. apply (enough_40 (g_c g0) d); auto. destruct M4 as [<-|M4]; [destruct M1; lia|]. destruct (inner_in bpp d0 mids dy dx Hf d M4) as [(I1 & I2 & I3) _]. lia.
    + assert (i < List.length (geos pyramid_fuel g0))%nat by (apply nth_error_Some; unfold g0; congruence). lia.
Qed.
Lemma L_row i g : is_geo (g_c g0) d0 mids dy dx i g -> per v3 (g_0 g) (g_m g) = row_frames v3 d0 mids i.
Proof. intros [H1 H2 _ _ _ _ _ _]. unfold per, row_frames. rewrite H1, H2. destruct v3; [reflexivity|]. rewrite Z.mul_1_r. reflexivity. Qed.
Lemma L_lev i g : nth_error L i = Some g -> lev v3 bpp okp lim i g.
Proof.
  intros H. destruct (L_geo i g H) as (G & K & V). destruct root_eq as [R1 R2]. pose proof (L_row i g G) as RW. destruct K as [K1 K2 K3 K4 K5]. destruct G as [G1 G2 G3 G4 G5 G6 G7 G8]. split; auto; rewrite ?G7, ?G8, ?R1, ?R2; try tauto.
  - intros q cc Hq Hr Hcc. rewrite RW in Hr.
    assert (EQ : map (np v3) (g_m g ++ [g_y g; g_x g]) = map (pieces v3) (map (at_level i) (mids ++ [dy; dx]))). { rewrite G2, G3, G4, (map_app (at_level i)). reflexivity. }
    rewrite EQ in Hcc. exists (Piece (Z.of_nat i) q cc). split; [exists i; auto|].
    rewrite (where_join v3 root (List.length cc)); [cbn [comps]; rewrite G6; reflexivity|]. repeat split; auto; [lia|]. eapply in_bounds_nonneg; eauto.
  - exists (ArrayDoc (Z.of_nat i)). split; [exists i; auto|]. rewrite (where_join v3 root 0); [cbn [comps]; rewrite G6; reflexivity|]. cbn. lia.
Qed.
Lemma doc_ok k : In k (names v3) -> okp (root ++ "/" ++ k)%string.
Proof. intros H. exists (StoreDoc k). split; [exact H|reflexivity]. Qed.
Lemma frames_pos : 0 < d_array dy * d_array dx * bpp.
Proof. exact (frame_pos v3 fs bpp (st_dtype st) g0 g0_ok). Qed.
Lemma commit_is s : commit st = Ok s -> s_dims s = ds /\ s_dtype s = st_dtype st /\ s_v3 s = v3 /\ base_config s = g_c g0 /\ s_multi s = Stream.st_multi st.
Proof.
  unfold commit. rewrite Hl, Hdim. unfold make_dimensions. destruct (Nat.ltb 2 (List.length ds)); [|discriminate]. cbn [obind]. intros H. injection H as <-. repeat split.
Qed.
Lemma writers_made s ws : commit st = Ok s -> create_writers s = Ok ws -> Forall2 (fun g a => make_writer v3 (g_c g) = Ok a) L ws.
Proof.
  intros Hs' Hws. destruct (commit_is s Hs') as (C1 & C2 & C3 & C4 & C5). unfold create_writers in Hws. rewrite C3, C4, C5 in Hws.
  destruct (make_writer v3 (g_c g0)) as [a| | |] eqn:A; try discriminate. cbn [obind] in Hws. unfold L, glevels. revert Hws. case_eq (Stream.st_multi st); intros M Hws.
  - destruct (pyramid pyramid_fuel v3 (g_c g0)) as [l'| | |] eqn:P; try discriminate. injection Hws as <-. constructor; [exact A|]. apply (pyramid_writers v3 fs bpp (st_dtype st)); [exact g0_ok|exact (proj1 (Hmulti M))|exact P].
  - injection Hws as <-. constructor; [exact A|constructor].
Qed.
Lemma frame_made s m : commit st = Ok s -> bytes_of_frame (s_dims s) (s_dtype s) = Ok m -> m = d_array dy * d_array dx * bpp.
Proof. intros Hs' Hm. destruct (commit_is s Hs') as (C1 & C2 & _). rewrite C1, C2 in Hm. unfold ds in Hm. rewrite (bytes_of_frame_exact bpp (st_dtype st) d0 mids dy dx Hf Hbpp) in Hm. injection Hm as <-. reflexivity. Qed.
Lemma paths calls w :
  whole_calls (d_array dy * d_array dx * bpp) calls -> bytes_given calls = n * (d_array dy * d_array dx * bpp) -> w_trace w = [] ->
  strict = false \/ match snd (session E st calls w) with Ok (Some (rs, _)) => all_fine rs | Ok None => True | _ => False end ->
  Forall (okev okd okp okd (oko okp)) (w_trace (fst (session E st calls w))).
Proof.
  intros Hc Hb Hw HS. set (fb := d_array dy * d_array dx * bpp) in *. pose proof frames_pos as FP. fold fb in FP.
  assert (HK : exists Ks, Forall2 (fun d K => zlen d = Z.of_nat K * fb) calls Ks).
  { clear - Hc. induction Hc as [|d l (k & K) _ (Ks & IH)]; [exists []; constructor|]. exists (k :: Ks). constructor; auto. }
  destruct HK as (Ks & HK).
  assert (HT : fold_right (fun K z => Z.of_nat K + z) 0 Ks = n).
  { assert (X : bytes_given calls = fold_right (fun K z => Z.of_nat K + z) 0 Ks * fb). { clear - HK. unfold bytes_given. induction HK; cbn [fold_right]; [reflexivity|]. rewrite IHHK, H. ring. }
    rewrite X in Hb. nia. }
  assert (R : Iwf okp (fst (session E st calls w))); [|exact (proj1 R)].
  apply (st_session E v3 bpp L okp lim strict n fb root) with (Ks := Ks); auto.
  - exact L_lev.
  - exact doc_ok.
  - intros S0 i. unfold lim. rewrite S0. lia.
  - intros S0 i. unfold lim. rewrite S0. lia.
  - rewrite Hplace. reflexivity.
  - rewrite Hplace. cbn [fst]. intros ->. destruct Hroot as [_ HR]. specialize (HR eq_refl). unfold strip_file. destruct (String.prefix "file://" root) eqn:P; auto. exfalso. apply prefix_spec in P as (c & ->). cbn in HR. destruct c; discriminate.
  - exact frame_made.
  - intros w' s ws _. apply writers_made.
  - lia.
  - split; [rewrite Hw; constructor|exact I].
Qed.
End Paths.
