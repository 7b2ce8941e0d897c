(** The chunk buffers hold exactly the specified bytes of the appended frames. *)
Require Import ZArith List Bool String Lia Zify.
Require Import Verif.Base Verif.Spec Verif.Dim Verif.Radix Verif.Limits Verif.DimProofs Verif.World Verif.Writer Verif.TileProofs.
Import ListNotations.
Open Scope list_scope.
Open Scope Z_scope.

Fixpoint in_boundsb (shape idx : list Z) : bool :=
  match shape, idx with
  | [], [] => true
  | d :: sh, i :: ix => (0 <=? i) && (i <? d) && in_boundsb sh ix
  | _, _ => false
  end.
Lemma in_boundsb_spec sh ix : in_boundsb sh ix = true <-> in_bounds sh ix.
Proof.
  revert ix; induction sh; destruct ix; simpl; try tauto; try (split; [discriminate|tauto]).
  rewrite !andb_true_iff, IHsh, Z.leb_le, Z.ltb_lt. tauto.
Qed.

Section Buf.
Variables (bpp dt : Z) (d0 : dim) (mids : list dim) (dy dx : dim).
Let ds := d0 :: mids ++ [dy; dx].
Hypothesis Hf : fits bpp d0 mids dy dx.
Let H := d_array dy. Let W := d_array dx. Let Ty := d_chunk dy. Let Tx := d_chunk dx.
Let ny := nch dy. Let nx := nch dx.
Let A := map d_array mids. Let C := map d_chunk mids. Let N := map nch mids.
Let C0 := d_chunk d0.
Let nbuf := prodZ N * (ny * nx).
Let B := prodZ (map d_chunk ds) * bpp.
Let TT := Ty * Tx * bpp.
Let P := C0 * prodZ A.

(** frame that byte [o] of chunk [c] (append chunk index [q]) belongs to; None if the
    middle coordinates lie outside the array *)
Definition owner (q c o : Z) : option Z :=
  let e := unravel (C0 :: C) (o / TT) in
  let mm := unchunk C (unravel N (c / (ny * nx))) (tl e) in
  if in_boundsb A mm then Some ((q * C0 + hd 0 e) * prodZ A + ravel A mm) else None.

Definition spec_byte (F : list (list Z)) (q c o : Z) : Z :=
  let i := (c mod (ny * nx)) / nx in
  let j := c mod nx in
  let r := o mod TT in
  let y := i * Ty + r / (Tx * bpp) in
  let s := r mod (Tx * bpp) in
  match owner q c o with
  | Some f => if (y <? H) && (j * Tx + s / bpp <? W)
              then getb (nth (Z.to_nat f) F []) ((y * W + j * Tx) * bpp + s) else 0
  | None => 0
  end.

Definition spec_chunk (F : list (list Z)) (q c : Z) : list Z := map (spec_byte F q c) (zseq B).
Definition spec_chunks (F : list (list Z)) (q : Z) : list (list Z) := map (spec_chunk F q) (zseq nbuf).

Lemma buf_pos : 0 < ny * nx /\ 0 < TT /\ 0 < prodZ N /\ 0 < C0 /\ 0 < prodZ C /\ 0 < prodZ A
   /\ B = C0 * prodZ C * TT /\ 0 < nbuf < 2 ^ 31 /\ 0 < B < 2 ^ 63 /\ 0 < bpp <= 8 /\ 0 < Tx * bpp /\ 0 < P < 2 ^ 63.
Proof.
  destruct (fr_ok _ _ _ _ _ Hf) as (HH & HW & HTy & HTx & HyB & HxB & HHW).
  fold H W Ty Tx in HH, HW, HTy, HTx, HyB, HxB, HHW.
  pose proof (fit_bpp _ _ _ _ _ Hf) as Hb.
  destruct (nch_bound _ _ _ _ _ Hf) as (HN & Hny & Hnx & Hnn). fold N ny nx in HN, Hny, Hnx, Hnn.
  pose proof (fit_c0 _ _ _ _ _ Hf) as Hc0. fold C0 in Hc0.
  pose proof (prodZ_pos _ (C_pos _ _ _ _ _ Hf)) as HPC. fold C in HPC.
  pose proof (PA_pos _ _ _ _ _ Hf) as HPA. fold A in HPA.
  assert (HBb : B < 2 ^ 63) by (unfold B; pose proof (fit_bytes _ _ _ _ _ Hf) as X; fold ds in X; lia).
  assert (HBE : B = C0 * prodZ C * TT).
  { unfold B, ds. rewrite chk_prod_split. fold C. fold Ty Tx C0. unfold TT. lia. }
  pose proof (period_bound _ _ _ _ _ Hf) as HP. fold A C0 in HP. fold P in HP.
  assert (0 < ny * nx) by (apply Z.mul_pos_pos; auto).
  assert (0 < TT) by (unfold TT; apply Z.mul_pos_pos; [apply Z.mul_pos_pos|]; lia).
  assert (0 < B) by (rewrite HBE; apply Z.mul_pos_pos; [apply Z.mul_pos_pos|]; lia).
  assert (0 < nbuf) by (unfold nbuf; apply Z.mul_pos_pos; lia).
  assert (0 < Tx * bpp) by (apply Z.mul_pos_pos; lia).
  assert (0 < P) by (unfold P; apply Z.mul_pos_pos; lia).
  unfold nbuf. tauto.
Qed.

Lemma spec_chunk_len F q c : zlen (spec_chunk F q c) = B.
Proof.
  unfold spec_chunk, zlen. rewrite map_length, zseq_length. pose proof buf_pos. lia.
Qed.
Lemma spec_chunks_len F q : zlen (spec_chunks F q) = nbuf.
Proof.
  unfold spec_chunks, zlen. rewrite map_length, zseq_length. pose proof buf_pos. lia.
Qed.
Lemma getb_spec_chunk F q c o : 0 <= o < B -> getb (spec_chunk F q c) o = spec_byte F q c o.
Proof.
  intros Ho. unfold getb, spec_chunk. rewrite nth_indep with (d' := spec_byte F q c 0).
  - rewrite map_nth, nth_zseq; auto.
  - rewrite map_length, zseq_length. lia.
Qed.
Lemma nth_spec_chunks F q c : 0 <= c < nbuf -> nth (Z.to_nat c) (spec_chunks F q) [] = spec_chunk F q c.
Proof.
  intros Hc. unfold spec_chunks. rewrite nth_indep with (d' := spec_chunk F q 0).
  - rewrite map_nth, nth_zseq; auto.
  - rewrite map_length, zseq_length. lia.
Qed.
Lemma bufs_eq_spec (bufs : list (list Z)) F q :
  zlen bufs = nbuf -> Forall (fun b => zlen b = B) bufs ->
  (forall c o, 0 <= c < nbuf -> 0 <= o < B -> getb (nth (Z.to_nat c) bufs []) o = spec_byte F q c o) ->
  bufs = spec_chunks F q.
Proof.
  intros L HB Hb. pose proof (spec_chunks_len F q) as L2.
  apply nth_ext with [] []; [unfold zlen in *; lia|].
  intros n Hn. assert (Hc : 0 <= Z.of_nat n < nbuf) by (unfold zlen in L; lia).
  rewrite <- (Nat2Z.id n), nth_spec_chunks by auto.
  assert (Hl : zlen (nth (Z.to_nat (Z.of_nat n)) bufs []) = B).
  { rewrite Nat2Z.id. rewrite Forall_forall in HB. apply HB, nth_In; auto. }
  apply list_eq_getb; [rewrite spec_chunk_len; auto|].
  intros i Hi. rewrite Hl in Hi. rewrite Hb, getb_spec_chunk by auto. auto.
Qed.

(** which chunk slot owns frame [f] *)
Lemma owner_iff q c o f :
  0 <= c < nbuf -> 0 <= o < B -> 0 <= q -> 0 <= f -> f / P = q ->
  (owner q c o = Some f <->
   c / (ny * nx) = frame_group mids f /\ o / TT = frame_slot d0 mids f).
Proof.
  intros Hc Ho Hq Hf0 Hfq.
  destruct buf_pos as (P1 & P2 & P3 & P4 & P5 & P6 & PB & _ & _ & _ & _ & PP).
  assert (Hg : 0 <= c / (ny * nx) < prodZ N).
  { split; [apply Z.div_pos; lia|apply Z.div_lt_upper_bound; unfold nbuf in Hc; lia]. }
  assert (Hk : 0 <= o / TT < prodZ (C0 :: C)).
  { simpl. split; [apply Z.div_pos; lia|apply Z.div_lt_upper_bound; lia]. }
  pose proof (N_pos _ _ _ _ _ Hf) as HNp. fold N in HNp.
  pose proof (A_pos _ _ _ _ _ Hf) as HAp. fold A in HAp.
  pose proof (C_pos _ _ _ _ _ Hf) as HCp. fold C in HCp.
  assert (HCC : allpos (C0 :: C)) by (apply allpos_cons; auto).
  pose proof (unravel_in_bounds _ _ HCC Hk) as Hub.
  pose proof (unravel_in_bounds _ _ HNp Hg) as Hug.
  pose proof (ravel_unravel _ _ HCC Hk) as Hru. pose proof (ravel_unravel _ _ HNp Hg) as Hrg.
  assert (LN : List.length N = List.length mids) by apply map_length.
  assert (LC : List.length C = List.length mids) by apply map_length.
  assert (LA : List.length A = List.length mids) by apply map_length.
  unfold owner, frame_group, frame_slot. fold N A C C0.
  remember (unravel (C0 :: C) (o / TT)) as e eqn:He. remember (unravel N (c / (ny * nx))) as gg eqn:Hgg.
  destruct e as [|e0 em]; [simpl in Hub; tauto|]. simpl in Hub. destruct Hub as [He0 Hem].
  cbn [hd tl].
  assert (Lem : List.length em = List.length C) by (symmetry; apply in_bounds_length; auto).
  assert (Lgg : List.length gg = List.length N) by (symmetry; apply in_bounds_length; auto).
  pose proof (mid_coords_bounds _ _ _ _ _ Hf f) as Hmc. fold A in Hmc.
  assert (Lmc : List.length (mid_coords mids f) = List.length A) by (symmetry; apply in_bounds_length; auto).
  assert (Et : f / prodZ A = q * C0 + (f / prodZ A) mod C0).
  { rewrite (Z.div_mod (f / prodZ A) C0) at 1 by lia. rewrite Z.div_div by lia. rewrite (Z.mul_comm (prodZ A)). fold P. rewrite Hfq. lia. }
  assert (Ef : f = (f / prodZ A) * prodZ A + ravel A (mid_coords mids f)).
  { unfold mid_coords. fold A. rewrite ravel_unravel; auto; [|apply Z.mod_pos_bound; lia].
    rewrite (Z.div_mod f (prodZ A)) at 1 by lia. lia. }
  split.
  - destruct (in_boundsb A (unchunk C gg em)) eqn:Eb; [|discriminate]. intros Hs. inversion Hs as [Hs'].
    apply in_boundsb_spec in Eb. pose proof (ravel_bound _ _ Eb) as Hrb.
    assert (D1 : f / prodZ A = q * C0 + e0) by (apply (div_unique' f (prodZ A) _ (ravel A (unchunk C gg em))); lia).
    assert (D2 : f mod prodZ A = ravel A (unchunk C gg em)) by (apply (mod_unique' f (prodZ A) (q * C0 + e0)); lia).
    assert (D3 : mid_coords mids f = unchunk C gg em).
    { unfold mid_coords. fold A. rewrite D2. apply unravel_ravel; auto. }
    rewrite Hs'. rewrite D3. rewrite unchunk_div by (auto; lia). rewrite unchunk_mod by (auto; lia).
    rewrite D1. replace ((q * C0 + e0) mod C0) with e0.
    2:{ symmetry. apply (mod_unique' _ C0 q e0); lia. }
    auto.
  - intros [G1 G2].
    assert (X1 : zip_with Z.div (mid_coords mids f) C = gg).
    { apply (ravel_inj N); auto; [|rewrite <- G1; auto]. apply (mid_chunk_bounds _ _ _ _ _ Hf). }
    assert (X2 : (f / prodZ A) mod C0 :: zip_with Z.modulo (mid_coords mids f) C = e0 :: em).
    { apply (ravel_inj (C0 :: C)).
      - simpl. split; [apply Z.mod_pos_bound; lia|]. apply (mid_inner_bounds _ _ _ _ _ Hf).
      - simpl. auto.
      - rewrite <- G2. auto. }
    inversion X2 as [[X3 X4]]. rewrite <- X1.
    rewrite unchunk_div_mod by (auto; lia).
    rewrite (proj2 (in_boundsb_spec A _) Hmc). f_equal. rewrite <- Et, X4 || idtac. lia.
Qed.

Lemma owner_range q c o f : 0 <= c < nbuf -> 0 <= o < B -> 0 <= q -> owner q c o = Some f -> q * P <= f < (q + 1) * P.
Proof.
  intros Hc Ho Hq. destruct buf_pos as (P1 & P2 & P3 & P4 & P5 & P6 & PB & _ & _ & _ & _ & PP).
  pose proof (C_pos _ _ _ _ _ Hf) as HCp. fold C in HCp.
  assert (Hk : 0 <= o / TT < prodZ (C0 :: C)).
  { simpl. split; [apply Z.div_pos; lia|apply Z.div_lt_upper_bound; lia]. }
  assert (HCC : allpos (C0 :: C)) by (apply allpos_cons; auto).
  pose proof (unravel_in_bounds _ _ HCC Hk) as Hub.
  unfold owner. remember (unravel (C0 :: C) (o / TT)) as e eqn:He.
  destruct e as [|e0 em]; [simpl in Hub; tauto|]. simpl in Hub. destruct Hub as [He0 Hem]. cbn [hd tl].
  destruct (in_boundsb A _) eqn:Eb; [|discriminate]. apply in_boundsb_spec in Eb. apply ravel_bound in Eb.
  intros Hs; inversion Hs as [Hs']. unfold P.
  assert ((q * C0 + e0) * prodZ A + prodZ A <= (q * C0 + C0) * prodZ A).
  { replace ((q * C0 + e0) * prodZ A + prodZ A) with ((q * C0 + e0 + 1) * prodZ A) by ring. apply Z.mul_le_mono_nonneg_r; lia. }
  assert (0 <= e0 * prodZ A) by (apply Z.mul_nonneg_nonneg; lia). lia.
Qed.

(** before any frame of epoch [q] the specified chunks are zero *)
Lemma spec_byte_fresh F q c o : 0 <= q -> 0 <= c < nbuf -> 0 <= o < B -> zlen F <= q * P -> spec_byte F q c o = 0.
Proof.
  intros Hq Hc Ho HF. unfold spec_byte. destruct (owner q c o) as [f|] eqn:E; auto.
  apply owner_range in E; auto. destruct buf_pos as (P1 & P2 & P3 & P4 & P5 & P6 & PB & _ & _ & _ & _ & PP).
  assert (0 <= q * P) by (apply Z.mul_nonneg_nonneg; lia).
  rewrite nth_overflow by (unfold zlen in HF; lia). unfold getb.
  match goal with |- context [if ?b then _ else _] => destruct b; auto end. destruct (Z.to_nat _); auto.
Qed.

(** frames after epoch [q] do not matter *)
Lemma spec_chunk_app F F' q c :
  0 <= q -> 0 <= c < nbuf -> (q + 1) * P <= zlen F -> spec_chunk (F ++ F') q c = spec_chunk F q c.
Proof.
  intros Hq Hc HF. unfold spec_chunk. apply map_ext_in. intros o Ho. apply in_zseq in Ho.
  unfold spec_byte. destruct (owner q c o) as [f|] eqn:E; auto.
  apply owner_range in E; auto. destruct buf_pos as (P1 & P2 & P3 & P4 & P5 & P6 & PB & _ & _ & _ & _ & PP).
  assert (0 <= q * P) by (apply Z.mul_nonneg_nonneg; lia).
  rewrite app_nth1 by (unfold zlen in HF; lia). auto.
Qed.

(** one more frame *)
Lemma frame_byte_spec F data q c o :
  0 <= c < nbuf -> 0 <= o < B -> 0 <= q -> zlen F / P = q ->
  frame_byte bpp d0 mids dy dx data (zlen F) c (spec_byte F q c o) o = spec_byte (F ++ [data]) q c o.
Proof.
  intros Hc Ho Hq HF. pose proof (zlen_nonneg F) as Hn0.
  unfold frame_byte. fold ny nx Tx Ty H W. fold TT.
  pose proof (owner_iff q c o (zlen F) Hc Ho Hq Hn0 HF) as Hown.
  destruct ((c / (ny * nx) =? frame_group mids (zlen F)) && (o / TT =? frame_slot d0 mids (zlen F))) eqn:E1; cbn [andb].
  - apply andb_prop in E1 as [E1 E2]. apply Z.eqb_eq in E1, E2.
    unfold spec_byte. rewrite (proj2 Hown) by auto.
    match goal with |- context [if ?b then _ else _] => destruct b; auto end.
    rewrite app_nth2 by (unfold zlen; lia). unfold zlen. rewrite Nat2Z.id, Nat.sub_diag. reflexivity.
  - unfold spec_byte. destruct (owner q c o) as [f|] eqn:Eo; auto.
    match goal with |- context [if ?b then _ else _] => destruct b; auto end.
    assert (f <> zlen F). { intros ->. destruct (proj1 Hown eq_refl) as [X1 X2]. rewrite X1, X2, !Z.eqb_refl in E1. discriminate. }
    apply owner_range in Eo; auto.
    destruct buf_pos as (P1 & P2 & P3 & P4 & P5 & P6 & PB & _ & _ & _ & _ & PP).
    assert (0 <= q * P) by (apply Z.mul_nonneg_nonneg; lia).
    destruct (Z.lt_ge_cases f (zlen F)).
    + rewrite app_nth1 by (unfold zlen in *; lia). auto.
    + rewrite !nth_overflow; auto; rewrite ?app_length; unfold zlen in *; simpl; lia.
Qed.

(** what the reader finds *)
Lemma spec_byte_read F t mm y x b :
  0 <= t -> in_bounds A mm -> 0 <= y < H -> 0 <= x < W -> 0 <= b < bpp ->
  let idx := t :: mm ++ [y; x] in
  let cs := map d_chunk ds in
  let cc := zip_with Z.div idx cs in
  let c := ravel (map nch (mids ++ [dy; dx])) (tl cc) in
  let o := ravel cs (zip_with Z.modulo idx cs) * bpp + b in
  hd 0 cc = t / C0 /\ in_bounds (map nch (mids ++ [dy; dx])) (tl cc) /\ 0 <= c < nbuf /\ 0 <= o < B /\
  spec_byte F (t / C0) c o = appended_byte bpp A W F t mm y x b.
Proof.
  intros Ht Hmm Hy Hx Hb idx cs cc c o.
  destruct (fr_ok _ _ _ _ _ Hf) as (HH & HW & HTy & HTx & HyB & HxB & HHW).
  fold H W Ty Tx in HH, HW, HTy, HTx, HyB, HxB, HHW.
  destruct buf_pos as (P1 & P2 & P3 & P4 & P5 & P6 & PB & PN & PBb & Pb & PTb & PP).
  destruct (nch_bound _ _ _ _ _ Hf) as (HN & Hny & Hnx & Hnn). fold N ny nx in HN, Hny, Hnx, Hnn.
  pose proof (C_pos _ _ _ _ _ Hf) as HCp. fold C in HCp.
  pose proof (N_pos _ _ _ _ _ Hf) as HNp. fold N in HNp.
  assert (Lmm : List.length mm = List.length C).
  { apply in_bounds_length in Hmm. rewrite <- Hmm. unfold A, C. rewrite !map_length; auto. }
  assert (LCN : List.length C = List.length N) by (unfold C, N; rewrite !map_length; auto).
  assert (Ecs : cs = C0 :: C ++ [Ty; Tx]) by (unfold cs, ds; simpl; rewrite map_app; reflexivity).
  assert (Ecc : cc = t / C0 :: zip_with Z.div mm C ++ [y / Ty; x / Tx]).
  { unfold cc, idx. rewrite Ecs, zip_with_cons, zip_with_app by auto. reflexivity. }
  assert (Eee : zip_with Z.modulo idx cs = t mod C0 :: zip_with Z.modulo mm C ++ [y mod Ty; x mod Tx]).
  { unfold idx. rewrite Ecs, zip_with_cons, zip_with_app by auto. reflexivity. }
  assert (Enn : map nch (mids ++ [dy; dx]) = N ++ [ny; nx]) by (rewrite map_app; reflexivity).
  assert (HEN : N = zip_with ceil_div A C).
  { unfold N, A, C. clear. induction mids; simpl; auto. f_equal; auto. }
  assert (Bcm : in_bounds N (zip_with Z.div mm C)).
  { rewrite HEN. apply zip_div_bounds; auto. unfold A, C; rewrite !map_length; auto. }
  assert (Bcy : 0 <= y / Ty < ny) by (apply div_lt_ceil; lia).
  assert (Bcx : 0 <= x / Tx < nx) by (apply div_lt_ceil; lia).
  assert (Lz : List.length N = List.length (zip_with Z.div mm C)) by (rewrite zip_with_length by auto; lia).
  assert (Bc : in_bounds (N ++ [ny; nx]) (zip_with Z.div mm C ++ [y / Ty; x / Tx])).
  { apply in_bounds_app; auto. split; auto. simpl. tauto. }
  assert (Bem : in_bounds C (zip_with Z.modulo mm C)) by (apply zip_mod_bounds; auto).
  pose proof (Z.mod_pos_bound y Ty ltac:(lia)) as Bey. pose proof (Z.mod_pos_bound x Tx ltac:(lia)) as Bex.
  pose proof (Z.mod_pos_bound t C0 ltac:(lia)) as Bet.
  assert (Lz2 : List.length C = List.length (zip_with Z.modulo mm C)) by (rewrite zip_with_length by auto; lia).
  assert (Ec : c = ravel N (zip_with Z.div mm C) * (ny * nx) + (y / Ty * nx + x / Tx)).
  { unfold c. rewrite Enn, Ecc. cbn [tl]. rewrite ravel_app by auto. simpl. lia. }
  set (K := ravel (C0 :: C) (t mod C0 :: zip_with Z.modulo mm C)).
  set (r := ((y mod Ty) * Tx + x mod Tx) * bpp + b).
  assert (Eo : o = K * TT + r).
  { unfold o. rewrite Eee, Ecs. unfold K, r.
    change (C0 :: C ++ [Ty; Tx]) with ((C0 :: C) ++ [Ty; Tx]).
    change (t mod C0 :: zip_with Z.modulo mm C ++ [y mod Ty; x mod Tx]) with ((t mod C0 :: zip_with Z.modulo mm C) ++ [y mod Ty; x mod Tx]).
    rewrite ravel_app by (simpl; auto). simpl. unfold TT. lia. }
  assert (BK : 0 <= K < C0 * prodZ C) by (apply (ravel_bound (C0 :: C)); simpl; auto).
  assert (Bpx : 0 <= (y mod Ty) * Tx + x mod Tx < Ty * Tx).
  { assert ((y mod Ty + 1) * Tx <= Ty * Tx) by (apply Z.mul_le_mono_nonneg_r; lia).
    assert (0 <= (y mod Ty) * Tx) by (apply Z.mul_nonneg_nonneg; lia). lia. }
  assert (Br : 0 <= r < TT).
  { unfold r, TT. set (px := (y mod Ty) * Tx + x mod Tx) in *.
    assert ((px + 1) * bpp <= Ty * Tx * bpp) by (apply Z.mul_le_mono_nonneg_r; lia).
    assert (0 <= px * bpp) by (apply Z.mul_nonneg_nonneg; lia). lia. }
  assert (Bt : 0 <= y / Ty * nx + x / Tx < ny * nx).
  { assert ((y / Ty + 1) * nx <= ny * nx) by (apply Z.mul_le_mono_nonneg_r; lia).
    assert (0 <= (y / Ty) * nx) by (apply Z.mul_nonneg_nonneg; lia). lia. }
  pose proof (ravel_bound _ _ Bcm) as Bg.
  assert (Bo : 0 <= o < B).
  { rewrite Eo, PB. assert ((K + 1) * TT <= C0 * prodZ C * TT) by (apply Z.mul_le_mono_nonneg_r; lia).
    assert (0 <= K * TT) by (apply Z.mul_nonneg_nonneg; lia). lia. }
  assert (Bcn : 0 <= c < nbuf).
  { rewrite Ec. unfold nbuf. set (g := ravel N (zip_with Z.div mm C)) in *.
    assert ((g + 1) * (ny * nx) <= prodZ N * (ny * nx)) by (apply Z.mul_le_mono_nonneg_r; lia).
    assert (0 <= g * (ny * nx)) by (apply Z.mul_nonneg_nonneg; lia). lia. }
  rewrite Enn. rewrite Ecc at 1 2. cbn [hd tl].
  split; [auto|]. split; [auto|]. split; [auto|]. split; [auto|].
  assert (Dc1 : c / (ny * nx) = ravel N (zip_with Z.div mm C)) by (apply (div_unique' _ _ _ (y / Ty * nx + x / Tx)); lia).
  assert (Dc2 : c mod (ny * nx) = y / Ty * nx + x / Tx) by (apply (mod_unique' _ _ (ravel N (zip_with Z.div mm C))); lia).
  assert (Dc3 : c mod nx = x / Tx).
  { rewrite <- (mod_mod_mul c ny nx) by lia. rewrite Dc2. apply (mod_unique' _ _ (y / Ty)); lia. }
  assert (Dc4 : (c mod (ny * nx)) / nx = y / Ty) by (rewrite Dc2; apply (div_unique' _ _ _ (x / Tx)); lia).
  assert (Do1 : o / TT = K) by (apply (div_unique' _ _ _ r); lia).
  assert (Do2 : o mod TT = r) by (apply (mod_unique' _ _ K); lia).
  assert (Bs : 0 <= x mod Tx * bpp + b < Tx * bpp).
  { assert ((x mod Tx + 1) * bpp <= Tx * bpp) by (apply Z.mul_le_mono_nonneg_r; lia).
    assert (0 <= (x mod Tx) * bpp) by (apply Z.mul_nonneg_nonneg; lia). lia. }
  assert (Dr1 : r / (Tx * bpp) = y mod Ty) by (apply (div_unique' _ _ _ (x mod Tx * bpp + b)); unfold r; lia).
  assert (Dr2 : r mod (Tx * bpp) = x mod Tx * bpp + b) by (apply (mod_unique' _ _ (y mod Ty)); unfold r; lia).
  assert (Ds : (x mod Tx * bpp + b) / bpp = x mod Tx) by (apply (div_unique' _ _ _ b); lia).
  unfold spec_byte. rewrite Dc3, Dc4, Do2, Dr1, Dr2, Ds.
  assert (Eown : owner (t / C0) c o = Some (t * prodZ A + ravel A mm)).
  { unfold owner. rewrite Do1, Dc1. unfold K. rewrite (unravel_ravel (C0 :: C)) by (simpl; auto). cbn [hd tl].
    rewrite (unravel_ravel N) by auto. rewrite unchunk_div_mod by auto.
    rewrite (proj2 (in_boundsb_spec A mm) Hmm). f_equal. f_equal. f_equal.
    rewrite (Z.div_mod t C0) at 3 by lia. lia. }
  rewrite Eown.
  pose proof (Z.div_mod y Ty ltac:(lia)) as Dy. pose proof (Z.div_mod x Tx ltac:(lia)) as Dx.
  rewrite (proj2 (Z.ltb_lt (y / Ty * Ty + y mod Ty) H)) by lia.
  rewrite (proj2 (Z.ltb_lt (x / Tx * Tx + x mod Tx) W)) by lia. cbn [andb].
  unfold appended_byte. f_equal.
  replace (y / Ty * Ty + y mod Ty) with y by lia.
  rewrite Dx at 3. lia.
Qed.
End Buf.
