(** Which chunks belong to which shard, and where they are in it. *)
Require Import ZArith List Bool String Ascii Lia Zify.
Require Import Verif.Base Verif.Spec Verif.Dim Verif.Json Verif.Radix Verif.Limits Verif.DimProofs Verif.ShardProofs
  Verif.World Verif.Writer Verif.ShardFile.
Import ListNotations.
Open Scope string_scope.
Open Scope list_scope.
Open Scope Z_scope.

Lemma nsh_lt d s : inner_ok d -> shard_ok d -> 0 <= s < nsh d -> 0 <= s * d_shard d < nch d.
Proof.
  intros Hi [Hp _] Hsd. unfold nsh in Hsd. pose proof (ceil_div_spec (nch d) (d_shard d) Hp). nia.
Qed.

Section G.
Variables (bpp : Z) (d0 : dim) (mids : list dim) (dy dx : dim).
Let inner := mids ++ [dy; dx].
Let ds := d0 :: inner.
Hypothesis Hf : fits bpp d0 mids dy dx.
Hypothesis Hs : fits_shards d0 mids dy dx.
Let N := map nch inner.
Let S := map d_shard inner.
Let NS := map nsh inner.
Let CPS := prodZ (map d_shard ds).
Let nbuf := prodZ N.

(** shard of a chunk, position of a chunk in its shard (append coordinate 0) *)
Definition shard_of (c : Z) : Z := ravel NS (zip_with Z.div (unravel N c) S).
Definition slot_of (c : nat) : Z := ravel (map d_shard ds) (0 :: zip_with Z.modulo (unravel N (Z.of_nat c)) S).
Definition members (k : nat) : list nat :=
  filter (fun c => shard_of (Z.of_nat c) =? Z.of_nat k) (seq 0 (Z.to_nat nbuf)).

Lemma g_len : List.length S = List.length N /\ List.length NS = List.length N.
Proof. unfold S, NS, N. rewrite !map_length. auto. Qed.
Lemma g_div_bounds cc : in_bounds N cc -> in_bounds NS (zip_with Z.div cc S).
Proof.
  intros H. replace NS with (zip_with ceil_div N S) by (symmetry; apply sh_NS_eq).
  apply zip_div_bounds; auto; [apply (sh_S_pos d0 mids dy dx Hs)|destruct g_len; auto].
Qed.
Lemma g_mod_bounds cc : in_bounds N cc -> in_bounds S (zip_with Z.modulo cc S).
Proof.
  intros H. apply zip_mod_bounds; [apply (sh_S_pos d0 mids dy dx Hs)|]. apply in_bounds_length in H. destruct g_len. lia.
Qed.
Lemma shard_of_bound c : 0 <= c < nbuf -> 0 <= shard_of c < prodZ NS.
Proof. intros H. apply ravel_bound, g_div_bounds, unravel_in_bounds; auto. apply (sh_N_pos bpp d0 mids dy dx Hf). Qed.
Lemma slot_bound c : (c < Z.to_nat nbuf)%nat -> 0 <= slot_of c < CPS.
Proof.
  intros H. unfold slot_of, CPS. apply ravel_bound. unfold ds. cbn [map in_bounds]. split.
  - pose proof (fit_s0 _ _ _ _ Hs). lia.
  - apply g_mod_bounds, unravel_in_bounds; [apply (sh_N_pos bpp d0 mids dy dx Hf)|]. fold nbuf. lia.
Qed.

Lemma members_lt k c : In c (members k) -> (c < Z.to_nat nbuf)%nat /\ shard_of (Z.of_nat c) = Z.of_nat k.
Proof.
  unfold members. intros H. apply filter_In in H as [H1 H2]. apply in_seq in H1. apply Z.eqb_eq in H2. split; [lia|auto].
Qed.
Lemma in_members k c : (c < Z.to_nat nbuf)%nat -> shard_of (Z.of_nat c) = Z.of_nat k -> In c (members k).
Proof. intros H1 H2. apply filter_In. split; [apply in_seq; lia|apply Z.eqb_eq; auto]. Qed.
Lemma members_nodup k : NoDup (members k).
Proof. apply NoDup_filter, seq_NoDup. Qed.

Lemma slot_inj k c c' : In c (members k) -> In c' (members k) -> slot_of c = slot_of c' -> c = c'.
Proof.
  intros H1 H2 He. apply members_lt in H1 as [L1 E1]. apply members_lt in H2 as [L2 E2].
  pose proof (sh_N_pos bpp d0 mids dy dx Hf) as HN. fold inner N in HN.
  assert (B1 : in_bounds N (unravel N (Z.of_nat c))) by (apply unravel_in_bounds; auto; fold nbuf; lia).
  assert (B2 : in_bounds N (unravel N (Z.of_nat c'))) by (apply unravel_in_bounds; auto; fold nbuf; lia).
  assert (X : unravel N (Z.of_nat c) = unravel N (Z.of_nat c')).
  { destruct g_len as [G1 G2]. apply (div_mod_ext S).
    - apply (sh_S_pos d0 mids dy dx Hs).
    - rewrite unravel_length. auto.
    - rewrite unravel_length. auto.
    - apply (ravel_inj NS); try (apply g_div_bounds; auto). unfold shard_of in E1, E2. congruence.
    - apply (ravel_inj S); try (apply g_mod_bounds; auto).
      unfold slot_of, ds in He. cbn [map ravel] in He. rewrite !Z.mul_0_l, !Z.add_0_l in He. exact He. }
  apply Nat2Z.inj. rewrite <- (ravel_unravel N (Z.of_nat c)), <- (ravel_unravel N (Z.of_nat c')) by (auto; fold nbuf; lia). congruence.
Qed.
Lemma slots_nodup k : NoDup (map slot_of (members k)).
Proof.
  pose proof (members_nodup k) as H. pose proof (slot_inj k) as Hi. revert H Hi. generalize (members k) as l.
  induction l as [|c l IH]; intros Hnd Hi; cbn [map]; constructor.
  - inversion Hnd; subst. intros X. apply in_map_iff in X as (d & X1 & X2). assert (c = d) by (apply Hi; [left; auto|right; auto|auto]). subst. auto.
  - inversion Hnd; subst. apply IH; auto. intros x y Hx Hy. apply Hi; right; auto.
Qed.

(** no shard is empty *)
Lemma members_nonempty k : (k < Z.to_nat (prodZ NS))%nat -> members k <> [].
Proof.
  intros Hk. pose proof (sh_NS_pos bpp d0 mids dy dx Hf Hs) as HNS. fold inner NS in HNS.
  assert (Hb : in_bounds NS (unravel NS (Z.of_nat k))) by (apply unravel_in_bounds; auto; lia).
  set (ss := unravel NS (Z.of_nat k)) in *.
  assert (X : exists cc, in_bounds N cc /\ zip_with Z.div cc S = ss).
  { pose proof (sh_both bpp d0 mids dy dx Hf Hs) as Hall. fold inner in Hall. clear Hk HNS. revert Hb Hall. unfold NS, N, S. clearbody ss. revert ss. generalize inner. clear - bpp.
    intros l. induction l as [|d l IH]; intros s Hb Hall.
    - destruct s; [|destruct Hb]. exists []. simpl. auto.
    - destruct s as [|x s]; [destruct Hb|]. cbn [map in_bounds] in Hb. destruct Hb as [Hb1 Hb2]. inversion Hall as [|? ? [Hd1 Hd2] Hall']; subst.
      destruct (IH s Hb2 Hall') as (cc & C1 & C2). exists (x * d_shard d :: cc). cbn [map in_bounds zip_with].
      destruct Hd2 as [Hd3 Hd4]. split; [split; [apply nsh_lt; [exact Hd1|split; auto|exact Hb1]|auto]|].
      rewrite Z.div_mul by lia. congruence. }
  destruct X as (cc & C1 & C2). intros E0.
  pose proof (ravel_bound _ _ C1) as Hr. fold nbuf in Hr.
  assert (Hin : In (Z.to_nat (ravel N cc)) (members k)).
  { apply in_members; [lia|]. rewrite Z2Nat.id by lia. unfold shard_of. rewrite unravel_ravel by auto. rewrite C2.
    unfold ss. apply ravel_unravel; auto. lia. }
  rewrite E0 in Hin. destruct Hin.
Qed.

Lemma members_length k : (List.length (members k) <= Z.to_nat nbuf)%nat.
Proof.
  unfold members. rewrite <- (seq_length (Z.to_nat nbuf) 0) at 2. generalize (seq 0 (Z.to_nat nbuf)). intros l.
  induction l; simpl; [lia|]. destruct (_ =? _); simpl; lia.
Qed.

(** the partition computed by the code *)
Lemma chunks_in_shards_exact :
  chunks_in_shards ds (prodZ NS) (Z.to_nat nbuf) = Ok (map members (seq 0 (Z.to_nat (prodZ NS)))).
Proof.
  unfold chunks_in_shards.
  set (mem n := map (fun k => filter (fun c => shard_of (Z.of_nat c) =? Z.of_nat k) (seq 0 n)) (seq 0 (Z.to_nat (prodZ NS)))).
  assert (H0 : zrep [] (prodZ NS) = mem O).
  { unfold mem, zrep. simpl seq at 1. cbn [filter]. generalize (Z.to_nat (prodZ NS)). intros n. generalize O. induction n; intros s; simpl; auto. f_equal; auto. }
  rewrite H0. change (map members (seq 0 (Z.to_nat (prodZ NS)))) with (mem (Z.to_nat nbuf)).
  assert (Hle : (Z.to_nat nbuf <= Z.to_nat nbuf)%nat) by lia. revert Hle. generalize (Z.to_nat nbuf) at 1 3 4. intros n Hn.
  induction n as [|n IH]; [reflexivity|].
  replace (seq 0 (Datatypes.S n)) with (seq 0 n ++ [n]) by (rewrite seq_S; reflexivity).
  rewrite ofold_app, IH by lia. cbn [obind ofold].
  pose proof (shard_index_exact bpp d0 mids dy dx Hf Hs (Z.of_nat n)) as X. cbv zeta in X.
  assert (Hnb : 0 <= Z.of_nat n < nbuf) by lia.
  unfold ds, inner. rewrite X by exact Hnb. cbn [obind]. fold inner. fold N S NS. unfold chunk_coords. fold inner N. fold (shard_of (Z.of_nat n)).
  pose proof (shard_of_bound _ Hnb) as Hb. rewrite (proj2 (Z.ltb_lt _ _)) by lia.
  cbn [obind]. f_equal.
  assert (Hlen : forall j, List.length (mem j) = Z.to_nat (prodZ NS)) by (intros; unfold mem; rewrite map_length, seq_length; auto).
  apply nth_ext with [] [].
  - rewrite upd_length, !Hlen. auto.
  - intros k Hk. rewrite upd_length, Hlen in Hk. rewrite nth_upd by (rewrite Hlen; lia).
    assert (Hm : forall j k, (k < Z.to_nat (prodZ NS))%nat -> nth k (mem j) [] = filter (fun c => shard_of (Z.of_nat c) =? Z.of_nat k) (seq 0 j)).
    { intros j i Hi. unfold mem.
      set (f := fun k0 : nat => filter (fun c : nat => shard_of (Z.of_nat c) =? Z.of_nat k0) (seq 0 j)).
      rewrite (nth_indep _ [] (f O)) by (rewrite map_length, seq_length; lia). rewrite map_nth. rewrite seq_nth by lia. reflexivity. }
    rewrite !Hm by lia. rewrite seq_S, filter_app. cbn [filter Nat.add].
    destruct (Nat.eqb_spec (Z.to_nat (shard_of (Z.of_nat n))) k) as [<-|Hne].
    + rewrite Z2Nat.id by lia. rewrite Z.eqb_refl. reflexivity.
    + rewrite (proj2 (Z.eqb_neq _ _)) by lia. rewrite app_nil_r. reflexivity.
Qed.
End G.

Lemma shard_in_range bpp d0 mids dy dx c :
  fits bpp d0 mids dy dx -> fits_shards d0 mids dy dx ->
  let ds := d0 :: mids ++ [dy; dx] in
  let nchunks := prodZ (map nch (mids ++ [dy; dx])) in
  0 <= c < nchunks ->
  exists s i n, shard_index_for_chunk ds c = Ok s /\ shard_internal_index ds c = Ok i /\
    number_of_shards ds = Ok n /\ 0 <= s < n /\ 0 <= i < chunks_per_shard ds.
Proof.
  intros Hf Hs ds n Hc. pose proof (shard_index_exact bpp d0 mids dy dx Hf Hs c Hc) as E1.
  pose proof (shard_internal_exact bpp d0 mids dy dx Hf Hs c Hc) as E2.
  eexists _, _, _. split; [exact E1|]. split; [exact E2|].
  split; [exact (number_of_shards_exact bpp d0 mids dy dx Hf Hs)|].
  split; [exact (shard_of_bound bpp d0 mids dy dx Hf Hs c Hc)|].
  unfold ds. rewrite (chunks_per_shard_exact d0 mids dy dx Hs).
  pose proof (slot_bound bpp d0 mids dy dx Hf Hs (Z.to_nat c) ltac:(fold n; lia)) as B. unfold slot_of in B.
  rewrite Z2Nat.id in B by lia. exact B.
Qed.

Lemma shard_no_shared_slot bpp d0 mids dy dx c c' :
  fits bpp d0 mids dy dx -> fits_shards d0 mids dy dx ->
  let ds := d0 :: mids ++ [dy; dx] in
  let nchunks := prodZ (map nch (mids ++ [dy; dx])) in
  0 <= c < nchunks -> 0 <= c' < nchunks ->
  shard_index_for_chunk ds c = shard_index_for_chunk ds c' ->
  shard_internal_index ds c = shard_internal_index ds c' -> c = c'.
Proof.
  intros Hf Hs ds n Hc Hc'. unfold ds.
  rewrite (shard_index_exact bpp d0 mids dy dx Hf Hs c Hc), (shard_index_exact bpp d0 mids dy dx Hf Hs c' Hc').
  rewrite (shard_internal_exact bpp d0 mids dy dx Hf Hs c Hc), (shard_internal_exact bpp d0 mids dy dx Hf Hs c' Hc').
  intros E1 E2. inversion E1 as [E1']. assert (E2' := f_equal (fun o => match o with Ok z => z | _ => 0 end) E2). cbv beta iota in E2'.
  set (k := Z.to_nat (shard_of mids dy dx c)).
  pose proof (shard_of_bound bpp d0 mids dy dx Hf Hs c Hc) as B1.
  assert (Z.to_nat c = Z.to_nat c'); [|lia].
  apply (slot_inj bpp d0 mids dy dx Hf Hs k).
  - apply (in_members d0 mids dy dx); [apply Z2Nat.inj_lt; [lia|unfold n in Hc; lia|exact (proj2 Hc)]|]. unfold k. rewrite !Z2Nat.id by lia. auto.
  - apply (in_members d0 mids dy dx); [apply Z2Nat.inj_lt; [lia|unfold n in Hc; lia|exact (proj2 Hc')]|]. unfold k. rewrite !Z2Nat.id by lia. symmetry. exact E1'.
  - unfold slot_of. rewrite !Z2Nat.id by lia. exact E2'.
Qed.

Lemma shard_every_used bpp d0 mids dy dx n s :
  fits bpp d0 mids dy dx -> fits_shards d0 mids dy dx ->
  let ds := d0 :: mids ++ [dy; dx] in
  let nchunks := prodZ (map nch (mids ++ [dy; dx])) in
  number_of_shards ds = Ok n -> 0 <= s < n ->
  exists c, 0 <= c < nchunks /\ shard_index_for_chunk ds c = Ok s.
Proof.
  intros Hf Hs ds nc Hn Hsn. unfold ds in Hn. rewrite (number_of_shards_exact bpp d0 mids dy dx Hf Hs) in Hn. inversion Hn; subst n.
  pose proof (members_nonempty bpp d0 mids dy dx Hf Hs (Z.to_nat s) ltac:(lia)) as Hne.
  destruct (members mids dy dx (Z.to_nat s)) as [|c l] eqn:Em; [congruence|].
  assert (Hin : In c (members mids dy dx (Z.to_nat s))) by (rewrite Em; left; auto).
  apply (members_lt d0 mids dy dx) in Hin as [H1 H2]. fold nc in H1. exists (Z.of_nat c). split; [lia|].
  unfold ds. rewrite (shard_index_exact bpp d0 mids dy dx Hf Hs (Z.of_nat c)) by (fold nc; lia).
  f_equal. rewrite Z2Nat.id in H2 by lia. exact H2.
Qed.
