(** The index of a finished shard. *)
Require Import ZArith List Bool String Ascii Lia Zify.
Require Import Verif.Base Verif.Spec Verif.Dim Verif.Limits Verif.Radix Verif.PathProofs Verif.World Verif.Writer
  Verif.SinkProofs Verif.FlushProofs Verif.LayoutProofs Verif.BufProofs Verif.ShardFile Verif.ShardGrid Verif.WriterProofs Verif.LevelProofs Verif.SessionSpec Verif.JsonProofs Verif.StoreProofs.
Import ListNotations.
Open Scope string_scope.
Open Scope list_scope.
Open Scope Z_scope.

Lemma max_empty : max64 = empty_entry. Proof. reflexivity. Qed.

Section Fill.
Variables (slot : nat -> Z) (pay : nat -> list Z) (l : list nat) (c0 T : list Z) (n : Z).
Hypothesis Hsl : forall d, In d l -> 0 <= slot d < n.
Hypothesis Hnd : NoDup (map slot l).
Hypothesis HT : zlen T = 2 * n.
Hypothesis HW : words_ok T.
Hypothesis Hroom : zlen c0 + zlen (body pay l) < 2 ^ 64.
Hypothesis Hpos : forall c, In c l -> 0 < zlen (pay c).
Hypothesis Hun : forall j, 0 <= j < n -> (forall c, In c l -> slot c <> j) -> nth (Z.to_nat (2 * j)) T 0 = max64 /\ nth (Z.to_nat (2 * j + 1)) T 0 = max64.
Let file := c0 ++ body pay l ++ table_bytes (fill slot pay l (zlen c0) T).

Lemma fill_table_len : zlen (fill slot pay l (zlen c0) T) = 2 * n.
Proof. unfold zlen in *. rewrite fill_len. exact HT. Qed.
Lemma file_len : zlen file = zlen c0 + zlen (body pay l) + 16 * n.
Proof. unfold file. pose proof (table_bytes_len (fill slot pay l (zlen c0) T)) as X. rewrite fill_table_len in X. unfold zlen in *. rewrite !app_length. lia. Qed.
Lemma entry i : 0 <= i < n -> shard_entry file n i = (nth (Z.to_nat (2 * i)) (fill slot pay l (zlen c0) T) 0, nth (Z.to_nat (2 * i + 1)) (fill slot pay l (zlen c0) T) 0).
Proof.
  intros Hi. unfold file. rewrite app_assoc. apply entry_of_table; auto using fill_table_len.
  apply fill_words; auto. unfold zlen; lia.
Qed.
Lemma entry_hit l1 c l2 : l = l1 ++ c :: l2 -> shard_entry file n (slot c) = (zlen c0 + zlen (body pay l1), zlen (pay c)).
Proof.
  intros El. assert (Hc : In c l) by (rewrite El; apply in_or_app; right; left; reflexivity). rewrite entry by (apply Hsl; auto).
  destruct (fill_hit slot pay l1 (zlen c0) T c l2) as [A B].
  - rewrite <- El. intros d Hd. specialize (Hsl d Hd). lia.
  - rewrite <- El. exact Hnd.
  - rewrite <- El in A, B. rewrite A, B. reflexivity.
Qed.
Lemma entry_miss j : 0 <= j < n -> (forall c, In c l -> slot c <> j) -> shard_entry file n j = (empty_entry, empty_entry).
Proof.
  intros Hj Hm. rewrite entry by auto. destruct (fill_miss slot pay l (zlen c0) T j) as [A B]; [lia| |].
  - intros c Hc. specialize (Hsl c Hc). specialize (Hm c Hc). lia.
  - destruct (Hun j Hj Hm) as [U1 U2]. rewrite A, B, U1, U2. reflexivity.
Qed.
Lemma slot_cases j : (exists c, In c l /\ slot c = j) \/ (forall c, In c l -> slot c <> j).
Proof.
  clear. induction l as [|a k IH]; [right; intros ? []|]. destruct IH as [(c & H1 & H2)|IH].
  - left. exists c. split; [right; auto|auto].
  - destruct (Z.eq_dec (slot a) j) as [X|X]; [left; exists a; split; [left|]; auto|]. right. intros c [<-|H]; auto.
Qed.
Lemma body_in l1 c l2 : zlen (body pay (l1 ++ c :: l2)) = zlen (body pay l1) + zlen (pay c) + zlen (body pay l2).
Proof. rewrite body_app, body_cons. unfold zlen. rewrite !app_length. lia. Qed.

Lemma fill_index_ok : index_ok file n.
Proof.
  split; [|split].
  - rewrite file_len. unfold zlen; lia.
  - intros i Hi. destruct (slot_cases i) as [(c & Hc & <-)|Hm].
    + right. destruct (in_split _ _ Hc) as (l1 & l2 & El). unfold entry_inside. rewrite (entry_hit l1 c l2 El). rewrite file_len, El, body_in.
      specialize (Hpos c Hc). unfold zlen in *. lia.
    + left. apply entry_miss; auto.
  - intros i j Hi Hj Hij Ei Ej.
    destruct (slot_cases i) as [(c & Hc & <-)|Hm]; [|exfalso; apply Ei; apply entry_miss; auto].
    destruct (slot_cases j) as [(d & Hd & <-)|Hm]; [|exfalso; apply Ej; apply entry_miss; auto].
    destruct (in_split _ _ Hc) as (l1 & l2 & El). unfold entries_apart.
    assert (X : In d (l1 ++ c :: l2)) by (rewrite <- El; exact Hd). apply in_app_or in X. destruct X as [X|[X|X]]; [|congruence|].
    + destruct (in_split _ _ X) as (k1 & k2 & Ek). rewrite (entry_hit l1 c l2 El).
      rewrite (entry_hit k1 d (k2 ++ c :: l2)). { rewrite Ek, body_in. right. unfold zlen; lia. }
      rewrite El, Ek, <- app_assoc. reflexivity.
    + destruct (in_split _ _ X) as (k1 & k2 & Ek). rewrite (entry_hit l1 c l2 El).
      rewrite (entry_hit (l1 ++ c :: k1) d k2). { rewrite body_in. left. unfold zlen; lia. }
      rewrite El, Ek, <- app_assoc. reflexivity.
Qed.
End Fill.

Section Level.
Variables (E : env) (root : string) (bk : option string) (m : nat) (L : lev) (F : list (list Z)) (tr : list event).
Hypothesis HL : lev_ok E true root bk m L.
Hypothesis HF : final E true bk L F tr.
Let inner := l_mids L ++ [l_dy L; l_dx L].
Let N := prodZ (map d_shard (l_ds L)).

(** every shard of the grid that holds frames is there and has a well-formed index; the place of a chunk
    of the grid is not empty, and holds the chunk of the last row *)
Lemma level_index s sc : (s + 1) * l_PP L <= zlen F \/ complete3 bk L F -> 0 <= s -> s * l_PP L < zlen F -> in_bounds (map nsh inner) sc ->
  exists file, stored E tr bk (shard_key (root ++ "/data/root/" ++ dec (l_level L)) (s :: sc)) = Some file /\ index_ok file N /\
    forall cc, in_bounds (map nch inner) cc -> zip_with Z.div cc (map d_shard inner) = sc ->
      shard_chunk file N (ravel (map d_shard (l_ds L)) (0 :: zip_with Z.modulo cc (map d_shard inner)))
      = Some (l_enc L (spec_chunk (l_bpp L) (l_d0 L) (l_mids L) (l_dy L) (l_dx L) F
                         (s * d_shard (l_d0 L) + (rows (l_d0 L) (l_mids L) F s - 1)) (ravel (map nch inner) cc))).
Proof.
  intros Hc Hs0 Hs Hsc. destruct (lo_s _ _ _ _ _ _ HL eq_refl) as [Hsh Hfile].
  pose proof (lo_f _ _ _ _ _ _ HL) as Hfit. pose proof (lo_ep _ _ _ _ _ _ HL) as Hep. pose proof (lo_enc _ _ _ _ _ _ HL) as Henc.
  set (k := Z.to_nat (ravel (map nsh inner) sc)).
  assert (Hk : (k < Z.to_nat (prodZ (map nsh inner)))%nat). { pose proof (ravel_bound (map nsh inner) sc Hsc). unfold k. lia. }
  pose proof (complete_files E root bk m L F tr HL HF s k Hc Hs0 Hs Hk) as X.
  assert (R : exists r, (r < Z.to_nat (d_shard (l_d0 L)))%nat /\ Z.to_nat (rows (l_d0 L) (l_mids L) F s) = Datatypes.S r).
  { destruct (epoch_le (l_cfg L) (l_bpp L) (l_d0 L) (l_mids L) (l_dy L) (l_dx L) Hfit Hep Hsh F s Hs0 Hs) as [Y|[Y Y']].
    - rewrite (rows_old (l_cfg L) (l_bpp L) (l_d0 L) (l_mids L) (l_dy L) (l_dx L) Hfit Hep Hsh F s Y). pose proof (fit_s0 _ _ _ _ Hsh). exists (Z.to_nat (d_shard (l_d0 L) - 1)). lia.
    - destruct Hc as [Hc'|[Hc'|[Hb Hp]]]; [exfalso| |].
      { pose proof (last_not_full (l_cfg L) (l_bpp L) (l_d0 L) (l_mids L) (l_dy L) (l_dx L) Hfit Hep Hsh F) as Z. subst s. unfold l_PP, l_P in Hc'. lia. }
      { exfalso; apply Y'; exact Hc'. } subst s.
      rewrite (rows_last (l_cfg L) (l_bpp L) (l_d0 L) (l_mids L) (l_dy L) (l_dx L) Hfit Hep Hsh F Hp).
      pose proof (epochs (l_cfg L) (l_bpp L) (l_d0 L) (l_mids L) (l_dy L) (l_dx L) Hfit Hep Hsh F) as (_ & Q & _). eexists. rewrite Nat2Z.id. split; [exact Q|reflexivity]. }
  destruct R as (r & Hr & R). rewrite R in X. eexists. split.
  - refine (eq_trans _ X). unfold sloc, base. rewrite (lo_root _ _ _ _ _ _ HL), (lo_bk _ _ _ _ _ _ HL).
    assert (U : unravel (map nsh inner) (Z.of_nat k) = sc). { unfold k. rewrite Z2Nat.id by (pose proof (ravel_bound (map nsh inner) sc Hsc); lia). apply unravel_ravel; auto. }
    fold inner. rewrite U. unfold shard_key, stored. 
    replace (join_path root (data_comps true (c_level (l_cfg L)) s)) with ((root ++ "/data/root/" ++ dec (l_level L)) ++ "/c" ++ dec s)%string.
    + destruct bk; reflexivity.
    + unfold data_comps, l_level. cbn [join_path]. rewrite !sapp_assoc. reflexivity.
  - split.
    2: { intros cc Hcc Hdiv. set (c := Z.to_nat (ravel (map nch inner) cc)).
      pose proof (ravel_bound _ _ Hcc) as Bc.
      assert (Ec : unravel (map nch inner) (Z.of_nat c) = cc) by (unfold c; rewrite Z2Nat.id by lia; apply unravel_ravel; auto).
      assert (Hin : In c (members (l_mids L) (l_dy L) (l_dx L) k)).
      { apply (in_members (l_d0 L)); fold inner; [unfold c; lia|]. unfold shard_of. fold inner. rewrite Ec, Hdiv. unfold k. rewrite Z2Nat.id; [reflexivity|]. pose proof (ravel_bound (map nsh inner) sc Hsc); lia. }
      pose proof (sfile_hit E (l_cfg L) (l_bpp L) (l_d0 L) (l_mids L) (l_dy L) (l_dx L) Hfit Hep (l_enc L) (l_mxl L) Henc Hsh Hfile F s k r c Hr Hin) as X1.
      unfold slot_of in X1. fold inner in X1. rewrite Ec in X1. refine (eq_trans X1 _). unfold pay. f_equal. f_equal. f_equal; [|unfold c; rewrite Z2Nat.id by lia; reflexivity].
      assert (rows (l_d0 L) (l_mids L) F s = Z.of_nat (Datatypes.S r)) by lia. lia. }
    rewrite sfile_S. 
    destruct (mem_slots (l_bpp L) (l_d0 L) (l_mids L) (l_dy L) (l_dx L) Hfit Hsh k) as [M1 M2].
    apply fill_index_ok; auto.
    + exact (stab_len (l_cfg L) (l_bpp L) (l_d0 L) (l_mids L) (l_dy L) (l_dx L) Hfit Hep (l_enc L) Hsh F s k r).
    + apply (stab_words E (l_cfg L) (l_bpp L) (l_d0 L) (l_mids L) (l_dy L) (l_dx L) Hfit Hep (l_enc L) (l_mxl L) Henc Hsh Hfile F s k r). lia.
    + exact (sfile_room E (l_cfg L) (l_bpp L) (l_d0 L) (l_mids L) (l_dy L) (l_dx L) Hfit Hep (l_enc L) (l_mxl L) Henc Hsh Hfile F s k r Hr).
    + intros c _. exact (proj1 (enc_len E (l_cfg L) (l_bpp L) (l_d0 L) (l_mids L) (l_dy L) (l_dx L) Hfit Hep (l_enc L) (l_mxl L) Henc F _ (Z.of_nat c))).
    + intros j Hj Hm. exact (stab_untouched (l_cfg L) (l_bpp L) (l_d0 L) (l_mids L) (l_dy L) (l_dx L) Hfit Hep (l_enc L) Hsh F s k r j Hj Hm).
Qed.
End Level.
