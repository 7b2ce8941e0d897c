(** Exactness of the shard index functions (zarr.dimension.cpp:149-257). *)
Require Import ZArith List Bool String Ascii Lia.
Require Import Verif.Base Verif.Spec Verif.Dim Verif.Limits Verif.Radix Verif.DimProofs.
Import ListNotations.
Open Scope Z_scope.

Definition shard_ok (d : dim) : Prop := 0 < d_shard d /\ nch d + d_shard d <= 2 ^ 32.

Lemma shards_along_ok d : inner_ok d -> shard_ok d -> shards_along_dimension d = Ok (nsh d).
Proof.
  intros Hi (Hs & Hl). unfold shards_along_dimension.
  rewrite (proj2 (Z.eqb_neq _ _)) by lia. rewrite chunks_along_ok by auto. cbn [obind].
  pose proof (nch_pos _ Hi). rewrite u32_id by lia. reflexivity.
Qed.
Lemma nsh_pos d : inner_ok d -> shard_ok d -> 0 < nsh d.
Proof. intros Hi (Hs & _). apply ceil_div_pos; auto. apply nch_pos; auto. Qed.

Lemma omap_ok {A B} (f : A -> outcome B) g l :
  Forall (fun a => f a = Ok (g a)) l -> omap f l = Ok (map g l).
Proof. induction 1; simpl; auto. rewrite H; simpl. rewrite IHForall; auto. Qed.

Lemma lattice_tail_step ci hi lo rest :
  lattice_tail ci (hi :: lo :: rest)
  = (let? a := omod ci hi in let? b := odiv a lo in
     let? r := lattice_tail ci (lo :: rest) in Ok (b :: r)).
Proof. reflexivity. Qed.

Lemma lattice_tail_exact ci d ds :
  allpos (map nch ds) ->
  lattice_tail ci (sprods (map nch (d :: ds)))
  = Ok (unravel (map nch ds) (ci mod prodZ (map nch ds))).
Proof.
  revert d; induction ds as [|d' ds IH]; intros d Hp; [reflexivity|].
  simpl map in Hp. apply allpos_cons in Hp as [Hd Hp]. pose proof (prodZ_pos _ Hp) as HP.
  specialize (IH d' Hp). cbn [map sprods] in IH.
  cbn [map sprods]. rewrite lattice_tail_step. cbn [prodZ unravel]. unfold omod, odiv.
  rewrite (proj2 (Z.eqb_neq (nch d' * prodZ (map nch ds)) 0)) by nia. cbn [obind].
  rewrite (proj2 (Z.eqb_neq (prodZ (map nch ds)) 0)) by lia. cbn [obind].
  rewrite IH. cbn [obind]. do 2 f_equal.
  rewrite mod_mod_mul by lia. auto.
Qed.

Lemma odivs_exact l m : allpos m -> odivs l m = Ok (zip_with Z.div l m).
Proof.
  revert m; induction l; destruct m; simpl; intros Hp; auto.
  apply allpos_cons in Hp as [? Hp]. unfold odiv. rewrite (proj2 (Z.eqb_neq z 0)) by lia.
  simpl. rewrite IHl; auto.
Qed.
Lemma omods_exact l m : allpos m -> omods l m = Ok (zip_with Z.modulo l m).
Proof.
  revert m; induction l; destruct m; simpl; intros Hp; auto.
  apply allpos_cons in Hp as [? Hp]. unfold omod. rewrite (proj2 (Z.eqb_neq z 0)) by lia.
  simpl. rewrite IHl; auto.
Qed.
Lemma wdot_exact w m l p acc :
  wraps w m -> Forall (fun x => 0 <= x) l -> Forall (fun x => 0 <= x) p -> 0 <= acc ->
  acc + dot l p < m -> wdot w l p acc = acc + dot l p.
Proof.
  intros Hw. revert p acc; induction l as [|a l IH]; intros [|b p] acc Hl Hp Ha Hlt; cbn [wdot dot] in *; try lia.
  inv Hl; inv Hp.
  assert (0 <= dot l p).
  { clear -H2 H4. revert p H4; induction l; intros [|b p] H4; simpl; try lia. inv H2; inv H4.
    specialize (IHl H3 _ H5). nia. }
  assert (0 <= a * b) by nia.
  rewrite (Hw (a * b)) by lia. rewrite Hw by lia. rewrite IH; auto; lia.
Qed.
Lemma sprods_nonneg l : allpos l -> Forall (fun x => 0 <= x) (sprods l).
Proof.
  induction l; simpl; intros Hp; constructor; apply allpos_cons in Hp as [? Hp]; auto.
  apply prodZ_pos in Hp; lia.
Qed.

Section ShardExact.
Variables (bpp : Z) (d0 : dim) (mids : list dim) (dy dx : dim).
Let inner := mids ++ [dy; dx].
Let ds := d0 :: inner.
Hypothesis Hf : fits bpp d0 mids dy dx.
Hypothesis Hs : fits_shards d0 mids dy dx.

Let N := map nch inner.
Let S := map d_shard inner.
Let NS := map nsh inner.

Lemma sh_inner_ok : Forall inner_ok inner.
Proof. apply (fit_inner _ _ _ _ _ Hf). Qed.
Lemma sh_shard_ok : Forall shard_ok inner.
Proof. apply (fit_sinner _ _ _ _ Hs). Qed.
Lemma sh_both : Forall (fun d => inner_ok d /\ shard_ok d) inner.
Proof. apply Forall_and; [apply sh_inner_ok|apply sh_shard_ok]. Qed.
Lemma sh_N_pos : allpos N. Proof. apply inner_allpos_nch, sh_inner_ok. Qed.
Lemma sh_S_pos : allpos S.
Proof. apply Forall_map. eapply Forall_impl; [|apply sh_shard_ok]. intros a (?&?); auto. Qed.
Lemma sh_NS_eq : NS = zip_with ceil_div N S.
Proof. unfold NS, N, S. clear. induction inner; simpl; auto. f_equal; auto. Qed.
Lemma sh_NS_pos : allpos NS.
Proof.
  apply Forall_map. eapply Forall_impl; [|apply sh_both]. intros a (?&?). apply nsh_pos; auto.
Qed.
Lemma sh_NS_le : prodZ NS <= prodZ N.
Proof.
  apply prodZ_mono; [apply sh_NS_pos|]. unfold NS, N.
  pose proof sh_both as H. revert H. generalize inner as l. induction l; simpl; intros H; constructor; inv H; auto.
  destruct H2 as [Hx1 [Hx2 Hx3]].
  unfold nsh. apply ceil_div_le; [pose proof (nch_pos _ Hx1); lia|lia].
Qed.
Lemma sh_N_bound : prodZ N < 2 ^ 31. Proof. apply (fit_chunks _ _ _ _ _ Hf). Qed.

Lemma omap_chunks : omap chunks_along_dimension inner = Ok N.
Proof. apply omap_ok. eapply Forall_impl; [|apply sh_inner_ok]. intros; apply chunks_along_ok; auto. Qed.
Lemma omap_shards : omap shards_along_dimension inner = Ok NS.
Proof.
  apply omap_ok. eapply Forall_impl; [|apply sh_both]. intros a (?&?). apply shards_along_ok; auto.
Qed.
Lemma nshards_of_all : Forall (fun d => nshards_of d = nsh d) inner.
Proof.
  eapply Forall_impl; [|apply sh_both]. intros a (?&?). unfold nshards_of. rewrite shards_along_ok; auto.
Qed.
Lemma nchunks_of_all : Forall (fun d => nchunks_of d = nch d) inner.
Proof. eapply Forall_impl; [|apply sh_inner_ok]. intros; apply nchunks_of_ok; auto. Qed.

Lemma number_of_shards_exact : number_of_shards ds = Ok (prodZ NS).
Proof.
  unfold number_of_shards, ds; simpl tl.
  pose proof sh_NS_le. pose proof sh_N_bound. pose proof (prodZ_pos _ sh_NS_pos).
  rewrite (ofold_mul_exact u64 (2 ^ 64) _ nsh); auto using wraps_u64; try lia.
  - cbn [obind]. fold NS. rewrite u32_id by lia. f_equal. lia.
  - eapply Forall_impl; [|apply sh_both]. intros a (?&?). apply shards_along_ok; auto.
  - apply sh_NS_pos.
  - fold NS. lia.
Qed.
Lemma sh_cps_pos : allpos (d_shard d0 :: S).
Proof. apply allpos_cons. split; [apply (fit_s0 _ _ _ _ Hs)|apply sh_S_pos]. Qed.
Lemma chunks_per_shard_exact : chunks_per_shard ds = prodZ (map d_shard ds).
Proof.
  unfold chunks_per_shard. pose proof (fit_cps _ _ _ _ Hs). fold inner in H. fold ds in H.
  pose proof (prodZ_pos _ sh_cps_pos). change (d_shard d0 :: S) with (map d_shard ds) in H0.
  rewrite (fold_mul_exact u64 (2 ^ 64)); auto using wraps_u64; try lia.
  - rewrite u32_id; lia.
  - apply sh_cps_pos.
Qed.

(** coordinates of chunk [ci] among the chunks in memory *)
Definition chunk_coords (ci : Z) : list Z := unravel N ci.

Lemma sh_coords_bounds ci : 0 <= ci < prodZ N -> in_bounds N (chunk_coords ci).
Proof. apply unravel_in_bounds, sh_N_pos. Qed.

Lemma unravel_u32 ci : 0 <= ci < prodZ N -> map u32 (unravel N ci) = unravel N ci.
Proof.
  intros H. pose proof (sh_coords_bounds _ H) as Hb. unfold chunk_coords in Hb.
  assert (Hall : Forall (fun n => n < 2 ^ 32) N).
  { unfold N. apply Forall_map. eapply Forall_impl; [|apply sh_inner_ok]. intros a (A & C & L).
    assert (nch a <= d_array a) by (apply ceil_div_le; lia). lia. }
  revert Hb Hall. generalize (unravel N ci) as l. generalize N as sh.
  induction sh; destruct l; simpl; intros Hb Hall; try tauto.
  inv Hall. f_equal; [apply u32_id; lia|apply IHsh; tauto].
Qed.

Lemma shard_index_exact ci :
  0 <= ci < prodZ N ->
  shard_index_for_chunk ds ci = Ok (ravel NS (zip_with Z.div (chunk_coords ci) S)).
Proof.
  intros Hci. unfold shard_index_for_chunk. unfold ds; simpl tl. rewrite omap_chunks, omap_shards. cbn [obind].
  pose proof sh_NS_le as HNS. pose proof sh_N_bound as HN. pose proof (prodZ_pos _ sh_N_pos).
  rewrite (strides_exact u64 (2 ^ 64) nchunks_of nch); auto using wraps_u64, nchunks_of_all, sh_N_pos; try lia;
    [|fold N; lia].
  rewrite (strides_exact u32 (2 ^ 32) nshards_of nsh); auto using wraps_u32, nshards_of_all, sh_NS_pos; try lia;
    [|fold NS; lia].
  rewrite lattice_tail_exact by apply sh_N_pos. fold N. cbn [obind].
  rewrite (Z.mod_small ci) by lia. rewrite unravel_u32 by lia.
  rewrite odivs_exact by apply sh_cps_pos. cbn [obind].
  cbn [map zip_with]. fold S.
  rewrite Zdiv_0_l. cbn [sprods]. fold NS.
  assert (Hb : in_bounds NS (zip_with Z.div (unravel N ci) S)).
  { rewrite sh_NS_eq. apply zip_div_bounds; [apply sh_S_pos| |apply sh_coords_bounds; auto].
    unfold N, S; rewrite !map_length; auto. }
  assert (L : List.length NS = List.length (zip_with Z.div (unravel N ci) S)) by (apply in_bounds_length; auto).
  rewrite (wdot_exact u32 (2 ^ 32)); auto using wraps_u32; try lia.
  - simpl dot. rewrite dot_sprods by auto. unfold chunk_coords. f_equal; lia.
  - constructor; [lia|]. eapply in_bounds_nonneg; eauto.
  - constructor; [pose proof (prodZ_pos _ sh_NS_pos); lia|]. apply sprods_nonneg, sh_NS_pos.
  - simpl dot. rewrite dot_sprods by auto. pose proof (ravel_bound _ _ Hb). lia.
Qed.

Lemma shard_internal_exact ci :
  0 <= ci < prodZ N ->
  shard_internal_index ds ci
  = Ok (ravel (map d_shard ds) (0 :: zip_with Z.modulo (chunk_coords ci) S)).
Proof.
  intros Hci. unfold shard_internal_index. unfold ds; simpl tl. rewrite omap_chunks. cbn [obind].
  pose proof sh_N_bound as HN. pose proof (prodZ_pos _ sh_N_pos).
  pose proof (fit_cps _ _ _ _ Hs) as Hc. fold inner in Hc. simpl in Hc. fold S in Hc.
  pose proof (prodZ_pos _ sh_S_pos). pose proof (fit_s0 _ _ _ _ Hs).
  rewrite (strides_exact u64 (2 ^ 64) nchunks_of nch); auto using wraps_u64, nchunks_of_all, sh_N_pos; try lia;
    [|fold N; lia].
  rewrite (strides_exact u64 (2 ^ 64) d_shard d_shard); auto using wraps_u64, sh_S_pos; try lia;
    [|apply Forall_forall; auto|fold S; nia].
  rewrite lattice_tail_exact by apply sh_N_pos. fold N. cbn [obind].
  rewrite (Z.mod_small ci) by lia.
  cbn [map sprods hd]. fold N. unfold odiv at 1. rewrite (proj2 (Z.eqb_neq (prodZ N) 0)) by lia. cbn [obind].
  rewrite (Z.div_small ci) by lia.
  change (d_shard d0 :: map d_shard inner) with (d_shard d0 :: S).
  rewrite odivs_exact, omods_exact by apply sh_cps_pos. cbn [obind zip_with].
  rewrite (Z.mod_small 0) by lia. fold S.
  assert (Hb : in_bounds S (zip_with Z.modulo (unravel N ci) S)).
  { apply zip_mod_bounds; [apply sh_S_pos|]. rewrite unravel_length. unfold N, S; rewrite !map_length; auto. }
  pose proof (ravel_bound _ _ Hb).
  assert (L : List.length S = List.length (zip_with Z.modulo (unravel N ci) S)) by (apply in_bounds_length; auto).
  rewrite (wdot_exact u64 (2 ^ 64)); auto using wraps_u64; try lia.
  - simpl dot. rewrite dot_sprods by auto. cbn [ravel]. unfold chunk_coords.
    rewrite u32_id by nia. f_equal; lia.
  - constructor; [lia|]. eapply in_bounds_nonneg; eauto.
  - constructor; [lia|]. apply sprods_nonneg, sh_S_pos.
  - simpl dot. rewrite dot_sprods by auto. nia.
Qed.
End ShardExact.
