(** The table and the content of one shard file: writing it chunk by chunk and reading it back. *)
Require Import ZArith List Bool String Ascii Lia Zify.
Require Import Verif.Base Verif.Spec Verif.Dim Verif.Json Verif.Radix Verif.Limits Verif.DimProofs Verif.PathProofs
  Verif.World Verif.Writer Verif.TileProofs Verif.SinkProofs Verif.CreateProofs Verif.FlushProofs.
Import ListNotations.
Open Scope string_scope.
Open Scope list_scope.
Open Scope Z_scope.

(** ** Little-endian words *)
Lemma table_bytes_len T : zlen (table_bytes T) = 8 * zlen T.
Proof.
  induction T; [reflexivity|]. unfold table_bytes in *. cbn [flat_map]. rewrite zlen_app, zlen_cons, IHT.
  unfold zlen at 1. rewrite le_bytes_length. lia.
Qed.
Lemma slice_table T : forall j, 0 <= j < zlen T -> slice (table_bytes T) (8 * j) 8 = le_bytes 8 (nth (Z.to_nat j) T 0).
Proof.
  induction T as [|x T IH]; intros j Hj; [change (zlen []) with 0 in Hj; lia|].
  rewrite zlen_cons in Hj. unfold slice, table_bytes in *. cbn [flat_map].
  destruct (Z.eq_dec j 0) as [->|Hne].
  - change (Z.to_nat (8 * 0)) with O. cbn [skipn]. rewrite firstn_app, le_bytes_length.
    change (Z.to_nat 8) with 8%nat. rewrite Nat.sub_diag, firstn_O, app_nil_r.
    change (nth (Z.to_nat 0) (x :: T) 0) with x.
    apply firstn_all2. rewrite le_bytes_length. lia.
  - replace (Z.to_nat (8 * j)) with (8 + Z.to_nat (8 * (j - 1)))%nat by lia.
    rewrite skipn_app, le_bytes_length. rewrite skipn_all2 by (rewrite le_bytes_length; lia). cbn [app].
    replace (8 + Z.to_nat (8 * (j - 1)) - 8)%nat with (Z.to_nat (8 * (j - 1))) by lia.
    rewrite IH by lia. replace (Z.to_nat j) with (S (Z.to_nat (j - 1))) by lia. reflexivity.
Qed.
Lemma slice_app_r {A} (c d : list A) k n : 0 <= k -> firstn (Z.to_nat n) (skipn (Z.to_nat (zlen c + k)) (c ++ d)) = firstn (Z.to_nat n) (skipn (Z.to_nat k) d).
Proof.
  intros Hk. unfold zlen. rewrite skipn_app. rewrite skipn_all2 by lia. cbn [app].
  f_equal. f_equal. lia.
Qed.
Lemma slice_app_l (c d : list Z) k n : 0 <= k -> 0 <= n -> k + n <= zlen c -> slice (c ++ d) k n = slice c k n.
Proof.
  intros Hk Hn H. unfold slice, zlen in *. rewrite skipn_app, firstn_app.
  replace (Z.to_nat n - List.length (skipn (Z.to_nat k) c))%nat with O by (rewrite skipn_length; lia).
  cbn [firstn]. apply app_nil_r.
Qed.

Definition words_ok (T : list Z) : Prop := Forall (fun x => 0 <= x < 2 ^ 64) T.

Lemma entry_of_table c T n i :
  zlen T = 2 * n -> words_ok T -> 0 <= i < n ->
  shard_entry (c ++ table_bytes T) n i = (nth (Z.to_nat (2 * i)) T 0, nth (Z.to_nat (2 * i + 1)) T 0).
Proof.
  intros HT HW Hi. unfold shard_entry. rewrite zlen_app, table_bytes_len, HT.
  replace (zlen c + 8 * (2 * n) - 16 * n) with (zlen c) by lia.
  assert (Hw : forall j, 0 <= j < zlen T -> 0 <= nth (Z.to_nat j) T 0 < 2 ^ 64).
  { intros j Hj. apply (proj1 (Forall_nth _ _) HW). unfold zlen in Hj. lia. }
  unfold slice. rewrite slice_app_r by lia. replace (zlen c + 16 * i + 8) with (zlen c + (16 * i + 8)) by lia.
  rewrite slice_app_r by lia. fold (slice (table_bytes T) (16 * i) 8). fold (slice (table_bytes T) (16 * i + 8) 8).
  replace (16 * i) with (8 * (2 * i)) by lia. replace (8 * (2 * i) + 8) with (8 * (2 * i + 1)) by lia.
  rewrite !slice_table by lia.
  rewrite !le_value_bytes; [reflexivity| |]; (change (256 ^ Z.of_nat 8) with (2 ^ 64)); apply Hw; lia.
Qed.

(** ** Filling the table *)
Section Fill.
Variable slot : nat -> Z.
Variable pay : nat -> list Z.

Definition body (l : list nat) : list Z := List.concat (map pay l).
Lemma body_cons c l : body (c :: l) = pay c ++ body l. Proof. reflexivity. Qed.
Lemma body_app l l' : body (l ++ l') = body l ++ body l'.
Proof. unfold body. rewrite map_app, concat_app. reflexivity. Qed.

(** the entry of one chunk stored at offset [off] *)
Definition set_entry (T : list Z) (i off len : Z) : list Z :=
  upd (upd T (Z.to_nat (2 * i)) off) (Z.to_nat (2 * i + 1)) len.

Fixpoint fill (l : list nat) (off : Z) (T : list Z) : list Z :=
  match l with
  | [] => T
  | c :: l' => fill l' (off + zlen (pay c)) (set_entry T (slot c) off (zlen (pay c)))
  end.

Lemma set_entry_len T i off len : List.length (set_entry T i off len) = List.length T.
Proof. unfold set_entry. rewrite !upd_length. auto. Qed.
Lemma fill_len l : forall off T, List.length (fill l off T) = List.length T.
Proof. induction l; simpl; intros; auto. rewrite IHl. apply set_entry_len. Qed.

Lemma set_entry_words T i off len : words_ok T -> 0 <= off < 2 ^ 64 -> 0 <= len < 2 ^ 64 -> words_ok (set_entry T i off len).
Proof.
  intros HT Ho Hl. unfold set_entry, words_ok. 
  assert (X : forall L k v, Forall (fun x => 0 <= x < 2 ^ 64) L -> 0 <= v < 2 ^ 64 -> Forall (fun x => 0 <= x < 2 ^ 64) (upd L k v)).
  { clear. induction L as [|x L IH]; intros k v HL Hv; [destruct k; constructor|]. inversion HL; subst.
    destruct k; [constructor; auto|]. change (upd (x :: L) (S k) v) with (x :: upd L k v). constructor; auto. }
  apply X; auto.
Qed.
Lemma fill_words l : forall off T, words_ok T -> 0 <= off -> off + zlen (body l) < 2 ^ 64 -> words_ok (fill l off T).
Proof.
  induction l as [|c l IH]; intros off T HT Ho Hb; [auto|]. rewrite body_cons, zlen_app in Hb.
  pose proof (zlen_nonneg (pay c)). pose proof (zlen_nonneg (body l)). simpl. apply IH; [|lia|lia].
  apply set_entry_words; auto; lia.
Qed.

Lemma set_entry_same T i off len : 0 <= i -> 2 * i + 1 < zlen T ->
  nth (Z.to_nat (2 * i)) (set_entry T i off len) 0 = off /\ nth (Z.to_nat (2 * i + 1)) (set_entry T i off len) 0 = len.
Proof.
  intros Hi HT. unfold set_entry. unfold zlen in HT. rewrite !nth_upd by (rewrite ?upd_length; lia).
  rewrite Nat.eqb_refl. rewrite (proj2 (Nat.eqb_neq _ _)) by lia. rewrite Nat.eqb_refl. auto.
Qed.
Lemma set_entry_other T i j off len : 0 <= i -> 0 <= j -> 2 * i + 1 < zlen T -> i <> j ->
  nth (Z.to_nat (2 * j)) (set_entry T i off len) 0 = nth (Z.to_nat (2 * j)) T 0
  /\ nth (Z.to_nat (2 * j + 1)) (set_entry T i off len) 0 = nth (Z.to_nat (2 * j + 1)) T 0.
Proof.
  intros Hi Hj HT Hne. unfold set_entry. unfold zlen in HT. rewrite !nth_upd by (rewrite ?upd_length; lia).
  rewrite !(proj2 (Nat.eqb_neq _ _)) by lia. auto.
Qed.

Lemma fill_miss l : forall off T j, 0 <= j -> (forall c, In c l -> 0 <= slot c /\ 2 * slot c + 1 < zlen T /\ slot c <> j) ->
  nth (Z.to_nat (2 * j)) (fill l off T) 0 = nth (Z.to_nat (2 * j)) T 0
  /\ nth (Z.to_nat (2 * j + 1)) (fill l off T) 0 = nth (Z.to_nat (2 * j + 1)) T 0.
Proof.
  induction l as [|c l IH]; intros off T j Hj Hl; [auto|]. simpl.
  destruct (Hl c (or_introl eq_refl)) as (H1 & H2 & H3).
  destruct (IH (off + zlen (pay c)) (set_entry T (slot c) off (zlen (pay c))) j Hj) as (I1 & I2).
  { intros d Hd. destruct (Hl d (or_intror Hd)) as (D1 & D2 & D3). unfold zlen in *. rewrite set_entry_len. auto. }
  rewrite I1, I2. apply set_entry_other; auto.
Qed.

Lemma fill_hit l1 : forall off T c l2,
  (forall d, In d (l1 ++ c :: l2) -> 0 <= slot d /\ 2 * slot d + 1 < zlen T) ->
  NoDup (map slot (l1 ++ c :: l2)) ->
  nth (Z.to_nat (2 * slot c)) (fill (l1 ++ c :: l2) off T) 0 = off + zlen (body l1)
  /\ nth (Z.to_nat (2 * slot c + 1)) (fill (l1 ++ c :: l2) off T) 0 = zlen (pay c).
Proof.
  induction l1 as [|d l1 IH]; intros off T c l2 Hl Hnd.
  - cbn [app fill]. cbn [app map] in Hnd. inversion Hnd as [|? ? Hni Hnd']; subst.
    destruct (Hl c) as [H1 H2]; [left; auto|].
    destruct (fill_miss l2 (off + zlen (pay c)) (set_entry T (slot c) off (zlen (pay c))) (slot c) H1) as (M1 & M2).
    { intros d Hd. destruct (Hl d) as [D1 D2]; [right; auto|]. unfold zlen in *. rewrite set_entry_len. split; [auto|]. split; [auto|].
      intros X. apply Hni. rewrite <- X. apply in_map; auto. }
    rewrite M1, M2. change (zlen (body [])) with 0. rewrite Z.add_0_r. apply set_entry_same; auto.
  - cbn [app fill]. cbn [app map] in Hnd. inversion Hnd as [|? ? Hni Hnd']; subst.
    destruct (IH (off + zlen (pay d)) (set_entry T (slot d) off (zlen (pay d))) c l2) as (I1 & I2); auto.
    { intros x Hx. unfold zlen. rewrite set_entry_len. apply Hl. right; auto. }
    rewrite I1, I2. rewrite body_cons, zlen_app. split; [lia|auto].
Qed.
End Fill.

Lemma fill_ext slot pay pay' l : forall off T, (forall c, In c l -> pay c = pay' c) -> fill slot pay l off T = fill slot pay' l off T.
Proof.
  induction l as [|c l IH]; intros off T H; [auto|]. cbn [fill]. rewrite (H c) by (left; auto). apply IH. intros; apply H; right; auto.
Qed.
Lemma body_ext pay pay' l : (forall c, In c l -> pay c = pay' c) -> body pay l = body pay' l.
Proof. intros H. unfold body. f_equal. apply map_ext_in. auto. Qed.

(** reading the chunk [c] of a shard file whose last fill was [l] at the end of [c0] *)
Lemma shard_chunk_hit slot pay l1 c l2 c0 T n :
  let l := l1 ++ c :: l2 in
  (forall d, In d l -> 0 <= slot d < n) -> NoDup (map slot l) -> zlen T = 2 * n -> words_ok T ->
  zlen c0 + zlen (body pay l) < 2 ^ 64 -> 0 < zlen (pay c) ->
  shard_chunk (c0 ++ body pay l ++ table_bytes (fill slot pay l (zlen c0) T)) n (slot c) = Some (pay c).
Proof.
  intros l Hl Hnd HT HW Hb Hp. pose proof (zlen_nonneg c0) as Hc0.
  assert (Hc : 0 <= slot c < n) by (apply Hl; unfold l; apply in_or_app; right; left; auto).
  unfold shard_chunk. rewrite app_assoc. rewrite entry_of_table; auto.
  2:{ unfold zlen in *. rewrite fill_len. auto. }
  2:{ apply fill_words; auto. }
  destruct (fill_hit slot pay l1 (zlen c0) T c l2) as (F1 & F2); auto.
  { intros d Hd. specialize (Hl d Hd). lia. }
  fold l in F1, F2. rewrite F1, F2.
  assert (Hsum : zlen (body pay l) = zlen (body pay l1) + zlen (pay c) + zlen (body pay l2)).
  { unfold l. rewrite body_app, body_cons, !zlen_app. lia. }
  pose proof (zlen_nonneg (body pay l1)). pose proof (zlen_nonneg (body pay l2)).
  unfold empty_entry. rewrite (proj2 (Z.eqb_neq (zlen c0 + _) _)) by lia. cbn [andb].
  f_equal. rewrite slice_app_l by (rewrite ?zlen_app; lia).
  unfold slice. rewrite slice_app_r by lia. unfold l. rewrite body_app, body_cons.
  replace (zlen (body pay l1)) with (zlen (body pay l1) + 0) by lia.
  rewrite slice_app_r by lia. change (Z.to_nat 0) with O. cbn [skipn].
  rewrite firstn_app. unfold zlen. rewrite Nat2Z.id, Nat.sub_diag. cbn [firstn]. rewrite app_nil_r. apply firstn_all.
Qed.

Lemma shard_chunk_miss slot pay l c0 T n j :
  (forall d, In d l -> 0 <= slot d < n /\ slot d <> j) -> zlen T = 2 * n -> words_ok T -> 0 <= j < n ->
  zlen c0 + zlen (body pay l) < 2 ^ 64 ->
  nth (Z.to_nat (2 * j)) T 0 = max64 -> nth (Z.to_nat (2 * j + 1)) T 0 = max64 ->
  shard_chunk (c0 ++ body pay l ++ table_bytes (fill slot pay l (zlen c0) T)) n j = None.
Proof.
  intros Hl HT HW Hj Hb E1 E2. unfold shard_chunk. rewrite app_assoc. rewrite entry_of_table; auto.
  2:{ unfold zlen in *. rewrite fill_len. auto. }
  2:{ apply fill_words; auto. apply zlen_nonneg. }
  destruct (fill_miss slot pay l (zlen c0) T j) as (F1 & F2); [lia| |].
  { intros d Hd. destruct (Hl d Hd). split; [lia|]. split; [lia|auto]. }
  rewrite F1, F2, E1, E2. reflexivity.
Qed.

(** ** The job of one shard *)
Definition upd3 (a : writer) (ss : list (option sink)) (T : list (list Z)) (O : list Z) : writer :=
  set_offsets (set_tables (set_sinks a ss) T) O.
Lemma upd3_id a : upd3 a (a_sinks a) (a_tables a) (a_offsets a) = a.
Proof. destruct a; reflexivity. Qed.

Section Job.
Variable E : env.
Hypothesis HE : calm E.
Variables (ls : list loc) (ds : list dim) (bufs : list (list Z)) (slot : nat -> Z) (n : Z).
Hypothesis Hnd : NoDup ls.
Hypothesis Hn : n < 2 ^ 31.
Let pay (c : nat) : list Z := nth c bufs [].

Definition member_ok (c : nat) : Prop := shard_internal_index ds (Z.of_nat c) = Ok (slot c) /\ 0 <= slot c < n.

Lemma upd_upd {A} (l : list A) i x y : (i < List.length l)%nat -> upd (upd l i x) i y = upd l i y.
Proof.
  revert i; induction l as [|a l IH]; intros i Hi; simpl in Hi; [lia|]. destruct i; [reflexivity|].
  unfold upd in *. cbn [firstn skipn app]. f_equal. apply IH. lia.
Qed.

Lemma upd_nth_self {A} (l : list A) i d : (i < List.length l)%nat -> upd l i (nth i l d) = l.
Proof.
  revert i; induction l as [|a l IH]; intros i Hi; simpl in Hi; [lia|]. destruct i; [reflexivity|].
  unfold upd in *. cbn [firstn skipn app nth]. f_equal. apply IH. lia.
Qed.

Lemma catch_ok {S A} (m : M S A) h s s' v : m s = (s', Ok v) -> catchM m h s = (s', Ok v).
Proof. intros H. unfold catchM. rewrite H. reflexivity. Qed.

Lemma v3_chunk_ok a w cs s b c :
  c_dims (a_cfg a) = ds -> a_bufs a = bufs -> sinks_hold E w (a_sinks a) ls cs -> (s < List.length ls)%nat ->
  (s < List.length (a_tables a))%nat -> (s < List.length (a_offsets a))%nat ->
  nth s (a_offsets a) 0 = zlen (nth s cs []) -> zlen (nth s (a_tables a) []) = 2 * n ->
  zlen (nth s cs []) + zlen (pay c) < 2 ^ 64 -> member_ok c ->
  exists ss' w', v3_chunk E s b c (a, w)
     = ((upd3 a ss' (upd (a_tables a) s (set_entry (nth s (a_tables a) []) (slot c) (zlen (nth s cs [])) (zlen (pay c))))
                    (upd (a_offsets a) s (zlen (nth s cs [] ++ pay c))), w'), Ok (true, None))
    /\ extends (only (nth s ls (LF ""))) w w'
    /\ sinks_hold E w' ss' ls (upd cs s (nth s cs [] ++ pay c)).
Proof.
  intros Hds Hb Hh Hs HsT HsO Ho HT Hlt [Hm1 Hm2].
  destruct (on_sink_write E HE a w ls cs s (pay c) Hh Hnd Hs Hlt) as (ss' & w' & R1 & R2 & R3).
  exists ss', w'. split; [|split; auto].
  unfold v3_chunk. rewrite (bind_ok getA _ (a, w) (a, w) a) by reflexivity. cbv zeta. rewrite Hb. fold (pay c). rewrite Ho.
  erewrite bind_ok by (apply catch_ok; erewrite bind_ok by exact R1; reflexivity). cbv beta iota. apply catch_ok. rewrite Hds, Hm1.
  set (aw := (set_sinks a ss', w')).
  rewrite (bind_ok (liftM (Ok (slot c))) _ aw aw (slot c)) by reflexivity.
  rewrite !u32_id by (rewrite ?u32_id; lia).
  assert (X1 : table_set (nth s (a_tables a) []) (2 * slot c) (zlen (nth s cs [])) = Ok (upd (nth s (a_tables a) []) (Z.to_nat (2 * slot c)) (zlen (nth s cs [])))).
  { unfold table_set. rewrite HT, (proj2 (Z.ltb_lt _ _)) by lia. reflexivity. }
  rewrite X1. erewrite bind_ok by reflexivity.
  assert (X2 : table_set (upd (nth s (a_tables a) []) (Z.to_nat (2 * slot c)) (zlen (nth s cs []))) (2 * slot c + 1) (zlen (pay c))
     = Ok (set_entry (nth s (a_tables a) []) (slot c) (zlen (nth s cs [])) (zlen (pay c)))).
  { unfold table_set. unfold zlen at 1. rewrite upd_length. fold (zlen (nth s (a_tables a) [])). rewrite HT, (proj2 (Z.ltb_lt _ _)) by lia. reflexivity. }
  rewrite X2. erewrite bind_ok by reflexivity. erewrite bind_ok by reflexivity.
  unfold ret, upd3, aw. cbn [fst snd]. f_equal. f_equal.
  cbn [set_sinks a_tables a_offsets]. rewrite zlen_app.
  rewrite u64_id by (pose proof (zlen_nonneg (nth s cs [])); pose proof (zlen_nonneg (pay c)); lia). reflexivity.
Qed.

Lemma v3_chunks_ok s : forall l a w cs b,
  c_dims (a_cfg a) = ds -> a_bufs a = bufs -> sinks_hold E w (a_sinks a) ls cs -> (s < List.length ls)%nat ->
  (s < List.length (a_tables a))%nat -> (s < List.length (a_offsets a))%nat ->
  nth s (a_offsets a) 0 = zlen (nth s cs []) -> zlen (nth s (a_tables a) []) = 2 * n ->
  zlen (nth s cs []) + zlen (body pay l) < 2 ^ 64 -> (forall c, In c l -> member_ok c) ->
  exists ss' w', v3_chunks E s l b (a, w)
     = ((upd3 a ss' (upd (a_tables a) s (fill slot pay l (zlen (nth s cs [])) (nth s (a_tables a) [])))
                    (upd (a_offsets a) s (zlen (nth s cs [] ++ body pay l))), w'), Ok (b || negb (Nat.eqb (List.length l) 0), None))
    /\ extends (only (nth s ls (LF ""))) w w'
    /\ sinks_hold E w' ss' ls (upd cs s (nth s cs [] ++ body pay l)).
Proof.
  induction l as [|c l IH]; intros a w cs b Hds Hb Hh Hs HsT HsO Ho HT Hlt Hm.
  - exists (a_sinks a), w. split; [|split; [apply extends_refl|]].
    + cbn [v3_chunks fill List.length Nat.eqb negb]. rewrite orb_false_r. unfold ret. f_equal. f_equal. change (body pay []) with (@nil Z).
      rewrite app_nil_r, <- Ho. rewrite !upd_nth_self by auto. symmetry. apply upd3_id.
    + change (body pay []) with (@nil Z). rewrite app_nil_r. rewrite upd_nth_self; auto. destruct Hh as (_ & -> & _); auto.
  - rewrite body_cons, zlen_app in Hlt. pose proof (zlen_nonneg (pay c)). pose proof (zlen_nonneg (body pay l)).
    destruct (v3_chunk_ok a w cs s b c Hds Hb Hh Hs HsT HsO Ho HT) as (ss1 & w1 & R1 & R2 & R3); [lia|apply Hm; left; auto|].
    cbn [v3_chunks]. erewrite bind_ok by exact R1. cbv beta iota.
    set (a1 := upd3 _ _ _ _) in *.
    assert (Hcs : (s < List.length cs)%nat) by (destruct Hh as (_ & -> & _); auto).
    destruct (IH a1 w1 (upd cs s (nth s cs [] ++ pay c)) true) as (ss2 & w2 & S1 & S2 & S3); auto.
    + unfold a1, upd3. cbn. rewrite upd_length. auto.
    + unfold a1, upd3. cbn. rewrite upd_length. auto.
    + unfold a1, upd3. cbn [a_offsets set_offsets]. rewrite !nth_upd by auto. rewrite Nat.eqb_refl. reflexivity.
    + unfold a1, upd3. cbn [a_tables set_offsets set_tables]. rewrite !nth_upd by auto. rewrite Nat.eqb_refl.
      unfold zlen. rewrite set_entry_len. exact HT.
    + rewrite nth_upd, Nat.eqb_refl by auto. rewrite zlen_app. lia.
    + intros d Hd. apply Hm; right; auto.
    + exists ss2, w2. split; [|split].
      * rewrite S1. cbn [List.length Nat.eqb negb orb]. rewrite orb_true_r. f_equal. f_equal.
        rewrite nth_upd by auto. rewrite Nat.eqb_refl. unfold a1, upd3. cbn [a_tables a_offsets set_offsets set_tables set_sinks].
        rewrite !upd_upd by auto. rewrite nth_upd by auto. rewrite Nat.eqb_refl. cbn [fill].
        rewrite body_cons. rewrite <- app_assoc. rewrite zlen_app. reflexivity.
      * eapply extends_trans; eauto.
      * rewrite nth_upd in S3 by auto. rewrite Nat.eqb_refl in S3. rewrite upd_upd in S3 by auto.
        rewrite body_cons, app_assoc. exact S3.
Qed.

Lemma v3_job_ok roll cis a w cs s :
  c_dims (a_cfg a) = ds -> a_bufs a = bufs -> sinks_hold E w (a_sinks a) ls cs -> (s < List.length ls)%nat ->
  (s < List.length (a_tables a))%nat -> (s < List.length (a_offsets a))%nat ->
  nth s (a_offsets a) 0 = zlen (nth s cs []) -> zlen (nth s (a_tables a) []) = 2 * n ->
  nth s cis [] <> [] -> zlen (nth s cs []) + zlen (body pay (nth s cis [])) + 16 * n < 2 ^ 64 -> 0 <= n ->
  (forall c, In c (nth s cis []) -> member_ok c) ->
  let T' := fill slot pay (nth s cis []) (zlen (nth s cs [])) (nth s (a_tables a) []) in
  let c' := nth s cs [] ++ body pay (nth s cis []) in
  exists ss' w', v3_job E roll cis s (a, w) = ((upd3 a ss' (upd (a_tables a) s T') (upd (a_offsets a) s (zlen c')), w'), Ok tt)
    /\ extends (only (nth s ls (LF ""))) w w'
    /\ sinks_hold E w' ss' ls (upd cs s (c' ++ if roll then table_bytes T' else [])).
Proof.
  intros Hds Hb Hh Hs HsT HsO Ho HT Hne Hlt Hn0 Hm T' c'.
  destruct (v3_chunks_ok s (nth s cis []) a w cs false Hds Hb Hh Hs HsT HsO Ho HT) as (ss1 & w1 & R1 & R2 & R3); [lia|auto|].
  fold T' c' in R1, R3. assert (Hcs : (s < List.length cs)%nat) by (destruct Hh as (_ & -> & _); auto).
  unfold v3_job. replace (false || negb (Nat.eqb (List.length (nth s cis [])) 0)) with true in R1 by (destruct (nth s cis []); [congruence|reflexivity]).
  set (a1 := upd3 a ss1 (upd (a_tables a) s T') (upd (a_offsets a) s (zlen c'))) in *. destruct roll.
  - destruct (on_sink_write E HE a1 w1 ls (upd cs s c') s (table_bytes T') R3 Hnd Hs) as (ss2 & w2 & S1 & S2 & S3).
    { rewrite nth_upd, Nat.eqb_refl by auto. rewrite table_bytes_len. unfold zlen at 2. unfold T'. rewrite fill_len.
      fold (zlen (nth s (a_tables a) [])). rewrite HT. unfold c'. rewrite zlen_app. lia. }
    exists ss2, w2. split; [|split].
    + erewrite bind_ok by exact R1. cbv beta iota. erewrite bind_ok.
      2:{ unfold v3_table.
          rewrite (bind_ok getA _ (a1, w1) (a1, w1) a1) by reflexivity.
          replace (nth s (a_offsets a1) 0) with (zlen (nth s (upd cs s c') [])).
          2:{ unfold a1, upd3. cbn [a_offsets set_offsets]. rewrite !nth_upd by auto. rewrite !Nat.eqb_refl. reflexivity. }
          replace (nth s (a_tables a1) []) with T'.
          2:{ unfold a1, upd3. cbn [a_tables set_offsets set_tables]. rewrite !nth_upd by auto. rewrite !Nat.eqb_refl. reflexivity. }
          apply catch_ok. erewrite bind_ok by exact S1. reflexivity. }
      reflexivity.
    + eapply extends_trans; eauto.
    + rewrite nth_upd in S3 by auto. rewrite Nat.eqb_refl in S3. rewrite upd_upd in S3 by auto. exact S3.
  - exists ss1, w1. split; [|split; [exact R2|]].
    + erewrite bind_ok by exact R1. cbv beta iota. reflexivity.
    + rewrite app_nil_r. exact R3.
Qed.

(** all jobs of one flush, in any order *)
Lemma v3_jobs_ok roll cis : forall l a w cs,
  NoDup l -> c_dims (a_cfg a) = ds -> a_bufs a = bufs -> sinks_hold E w (a_sinks a) ls cs -> 0 <= n ->
  (forall s, In s l -> (s < List.length ls)%nat /\ (s < List.length (a_tables a))%nat /\ (s < List.length (a_offsets a))%nat
     /\ nth s (a_offsets a) 0 = zlen (nth s cs []) /\ zlen (nth s (a_tables a) []) = 2 * n
     /\ nth s cis [] <> [] /\ zlen (nth s cs []) + zlen (body pay (nth s cis [])) + 16 * n < 2 ^ 64
     /\ (forall c, In c (nth s cis []) -> member_ok c)) ->
  exists ss' w' T' O' cs', miter (v3_job E roll cis) l (a, w) = ((upd3 a ss' T' O', w'), Ok tt)
    /\ extends (in_locs ls) w w' /\ sinks_hold E w' ss' ls cs'
    /\ List.length T' = List.length (a_tables a) /\ List.length O' = List.length (a_offsets a)
    /\ (forall s, In s l ->
          nth s T' [] = fill slot pay (nth s cis []) (zlen (nth s cs [])) (nth s (a_tables a) [])
          /\ nth s O' 0 = zlen (nth s cs [] ++ body pay (nth s cis []))
          /\ nth s cs' [] = nth s cs [] ++ body pay (nth s cis []) ++ if roll then table_bytes (nth s T' []) else [])
    /\ (forall s, ~ In s l -> nth s T' [] = nth s (a_tables a) [] /\ nth s O' 0 = nth s (a_offsets a) 0 /\ nth s cs' [] = nth s cs []).
Proof.
  induction l as [|s l IH]; intros a w cs Hl Hds Hb Hh Hn0 Hok.
  - exists (a_sinks a), w, (a_tables a), (a_offsets a), cs. rewrite upd3_id. cbn [miter].
    split; [reflexivity|]. split; [apply extends_refl|]. split; [auto|]. split; [auto|]. split; [auto|]. split; [intros s []|auto].
  - inversion Hl as [|? ? Hni Hl']; subst x l0.
    destruct (Hok s (or_introl eq_refl)) as (K1 & K2 & K3 & K4 & K5 & K6 & K7 & K8).
    destruct (v3_job_ok roll cis a w cs s Hds Hb Hh K1 K2 K3 K4 K5 K6 K7 Hn0 K8) as (ss1 & w1 & R1 & R2 & R3).
    cbv zeta in R1, R3. set (T1 := fill slot pay _ _ _) in *. set (c1 := nth s cs [] ++ body pay (nth s cis [])) in *.
    cbn [miter]. erewrite bind_ok by exact R1. set (a1 := upd3 a ss1 _ _) in *.
    assert (Hcs : (s < List.length cs)%nat) by (destruct Hh as (_ & -> & _); auto).
    set (cs1 := upd cs s (c1 ++ if roll then table_bytes T1 else [])) in *.
    assert (Hlt : List.length (a_tables a1) = List.length (a_tables a)) by (unfold a1, upd3; cbn; apply upd_length).
    assert (Hlo : List.length (a_offsets a1) = List.length (a_offsets a)) by (unfold a1, upd3; cbn; apply upd_length).
    assert (Hlc : List.length cs1 = List.length cs) by apply upd_length.
    assert (Hcslen : List.length cs = List.length ls) by (destruct Hh as (_ & X & _); auto).
    assert (Hoth : forall j, j <> s -> nth j (a_tables a1) [] = nth j (a_tables a) [] /\ nth j (a_offsets a1) 0 = nth j (a_offsets a) 0 /\ nth j cs1 [] = nth j cs []).
    { intros j Hj. unfold a1, upd3, cs1. cbn [a_tables a_offsets set_offsets set_tables set_sinks].
      rewrite !nth_upd by auto. rewrite (proj2 (Nat.eqb_neq s j)) by auto. auto. }
    destruct (IH a1 w1 cs1) as (ss2 & w2 & T2 & O2 & cs2 & S1 & S2 & S3 & S4 & S5 & S6 & S7); auto.
    { intros j Hj. assert (Hjs : j <> s) by congruence. destruct (Hoth j Hjs) as (X1 & X2 & X3). rewrite X1, X2, X3, Hlt, Hlo. apply Hok. right; auto. }
    exists ss2, w2, T2, O2, cs2. split; [rewrite S1; reflexivity|]. split.
    { eapply extends_trans; [|exact S2]. eapply extends_impl; [|exact R2]. intros e He. exists (nth s ls (LF "")). split; [apply nth_In; auto|auto]. }
    split; [auto|]. split; [congruence|]. split; [congruence|]. split.
    + intros j [<-|Hj].
      * destruct (S7 s Hni) as (X1 & X2 & X3). rewrite X1, X2, X3. unfold a1, upd3, cs1.
        cbn [a_tables a_offsets set_offsets set_tables set_sinks]. rewrite !nth_upd by auto. rewrite !Nat.eqb_refl.
        split; [reflexivity|]. split; [reflexivity|]. unfold c1. rewrite app_assoc. reflexivity.
      * assert (Hjs : j <> s) by congruence. destruct (Hoth j Hjs) as (X1 & X2 & X3). rewrite <- X1, <- X3. apply S6; auto.
    + intros j Hj. assert (Hjs : j <> s) by (intros ->; apply Hj; left; auto).
      destruct (Hoth j Hjs) as (X1 & X2 & X3). rewrite <- X1, <- X2, <- X3. apply S7. intros X; apply Hj; right; auto.
Qed.
End Job.
