(** write_frame_to_chunks copies a frame into the tiles of its chunks. *)
Require Import ZArith List Bool String Lia Zify.
Require Import Verif.Base Verif.Spec Verif.Dim Verif.Radix Verif.Limits Verif.DimProofs Verif.World Verif.Writer.
Import ListNotations.
Open Scope list_scope.
Open Scope Z_scope.

Lemma zseq_split n : 0 < n -> zseq n = zseq (n - 1) ++ [n - 1].
Proof. intros. replace n with (n - 1 + 1) at 1 by lia. apply zseq_S; lia. Qed.

(** a loop of [n] iterations, none of which stops early, keeping an invariant *)
Lemma floop_app {A S} (f : S -> A -> outcome (S * bool)) l m s s' :
  floop f l s = Ok (s', false) -> floop f (l ++ m) s = floop f m s'.
Proof.
  revert s; induction l as [|a l IH]; simpl; intros s H; [inversion H; auto|].
  destruct (f s a) as [[s1 st]|?| |]; simpl in *; try discriminate.
  destruct st; [discriminate|]. apply IH; auto.
Qed.
Lemma floop_inv {S} (f : S -> Z -> outcome (S * bool)) (I : Z -> S -> Prop) n s :
  0 <= n -> I 0 s ->
  (forall i s, 0 <= i < n -> I i s -> exists s', f s i = Ok (s', false) /\ I (i + 1) s') ->
  exists s', floop f (zseq n) s = Ok (s', false) /\ I n s'.
Proof.
  intros Hn H0 Hstep.
  assert (G : forall m, 0 <= m -> m <= n -> exists s', floop f (zseq m) s = Ok (s', false) /\ I m s').
  { apply (natlike_ind (fun m => m <= n -> exists s', floop f (zseq m) s = Ok (s', false) /\ I m s')).
    - intros _. exists s. auto.
    - intros m Hm IH Hle. destruct IH as (s1 & E1 & I1); [lia|].
      destruct (Hstep m s1) as (s2 & E2 & I2); [lia|auto|].
      exists s2. unfold Z.succ. rewrite zseq_S by lia. rewrite (floop_app _ _ _ _ _ E1). simpl.
      rewrite E2. simpl. auto. }
  apply G; lia.
Qed.

Section Tile.
Variables (data : list Z) (bpp H W Ty Tx E B : Z).
Hypothesis Hbpp : 0 < bpp <= 8.
Hypothesis HH : 0 < H. Hypothesis HW : 0 < W.
Hypothesis HTy : 0 < Ty < 2 ^ 31. Hypothesis HTx : 0 < Tx.
Hypothesis HyB : H + Ty <= 2 ^ 32. Hypothesis HxB : W + Tx <= 2 ^ 32.
Hypothesis Hfr : H * W < 2 ^ 32.
Hypothesis Hdata : zlen data = H * W * bpp.
Hypothesis HE : 0 <= E.
Hypothesis HEB : E + Ty * Tx * bpp <= B.
Hypothesis HB : B < 2 ^ 63.

(** byte [o] of the chunk buffer of tile (i, j) once the tile rows below [k] are copied *)
Definition tile_byte (i j k : Z) (old : Z) (o : Z) : Z :=
  let r := o - E in
  let ky := r / (Tx * bpp) in
  let s := r mod (Tx * bpp) in
  if (0 <=? r) && (ky <? k) && (i * Ty + ky <? H) && (j * Tx + s / bpp <? W)
  then getb data (((i * Ty + ky) * W + j * Tx) * bpp + s) else old.

Lemma tile_byte_0 i j old o : tile_byte i j 0 old o = old.
Proof.
  unfold tile_byte. destruct (0 <=? o - E) eqn:E1; simpl; auto.
  apply Z.leb_le in E1.
  assert (0 <= (o - E) / (Tx * bpp)) by (apply Z.div_pos; nia).
  rewrite (proj2 (Z.ltb_ge _ _)) by lia. auto.
Qed.

Lemma region_cols j s : 0 <= s -> 0 <= j * Tx < W ->
  (j * Tx + s / bpp <? W) = (s <? (Z.min (j * Tx + Tx) W - j * Tx) * bpp) || negb (s / bpp <? Tx) && (j * Tx + s / bpp <? W).
Proof.
  intros Hs Hj.
  pose proof (Z.div_mod s bpp ltac:(lia)). pose proof (Z.mod_pos_bound s bpp ltac:(lia)).
  destruct (s / bpp <? Tx) eqn:E1; simpl; rewrite ?orb_false_r.
  - apply Z.ltb_lt in E1.
    destruct (Z.ltb_spec (j * Tx + s / bpp) W); destruct (Z.ltb_spec s ((Z.min (j * Tx + Tx) W - j * Tx) * bpp)); auto; exfalso; nia.
  - apply Z.ltb_ge in E1.
    destruct (Z.ltb_spec s ((Z.min (j * Tx + Tx) W - j * Tx) * bpp)); simpl; auto. exfalso.
    assert (Z.min (j * Tx + Tx) W - j * Tx <= Tx) by lia. nia.
Qed.

(** number of rows of tile row [i] that are inside the frame among the first [k] *)
Definition rows (i k : Z) : Z := Z.min H (i * Ty + k) - i * Ty.
Definition cols (j : Z) : Z := Z.min (j * Tx + Tx) W - j * Tx.

Lemma copy_row_exact i j k chunk chunk0 w :
  0 <= i -> 0 <= j -> 0 <= k < Ty -> i * Ty < H -> j * Tx < W ->
  zlen chunk = B -> 0 <= w -> w + H * W * bpp < 2 ^ 64 ->
  (forall o, 0 <= o < B -> getb chunk o = tile_byte i j k (getb chunk0 o) o) ->
  exists chunk',
    copy_row data bpp H W Ty Tx E i j (chunk, w) k
      = Ok ((chunk', w + (rows i (k + 1) - rows i k) * cols j * bpp), false)
    /\ zlen chunk' = B
    /\ (forall o, 0 <= o < B -> getb chunk' o = tile_byte i j (k + 1) (getb chunk0 o) o).
Proof.
  intros Hi Hj Hk HiH HjW Hlen Hw Hwb Hinv.
  unfold copy_row.
  assert (HTb : 0 < Tx * bpp < 2 ^ 64) by nia.
  rewrite (u64_id (Tx * bpp)) by lia.
  rewrite (u32_id (i * Ty)) by nia. rewrite (u32_id (i * Ty + k)) by lia.
  assert (Hinb : forall o, 0 <= o < B -> 0 <= o - E ->
      let ky := (o - E) / (Tx * bpp) in let s := (o - E) mod (Tx * bpp) in
      o - E = Tx * bpp * ky + s /\ 0 <= s < Tx * bpp /\ 0 <= ky).
  { intros o Ho HoE ky s. subst ky s. split; [apply Z.div_mod; lia|].
    split; [apply Z.mod_pos_bound; lia|apply Z.div_pos; lia]. }
  destruct (Z.ltb_spec (i * Ty + k) H) as [Hrow|Hrow].
  - rewrite (u32_id (j * Tx)) by nia. rewrite (u32_id (j * Tx + Tx)) by lia.
    rewrite (u32_id (Z.min (j * Tx + Tx) W - j * Tx)) by lia. fold (cols j).
    assert (Hc : 0 < cols j <= Tx) by (unfold cols; lia).
    assert (Hc2 : j * Tx + cols j <= W) by (unfold cols; lia).
    rewrite (u32_id ((i * Ty + k) * W)) by nia.
    assert (Hpx0 : (i * Ty + k + 1) * W <= H * W) by (apply Z.mul_le_mono_nonneg_r; lia).
    assert (HjT : 0 <= j * Tx) by (apply Z.mul_nonneg_nonneg; lia).
    assert (HiT : 0 <= i * Ty) by (apply Z.mul_nonneg_nonneg; lia).
    assert (HrW : 0 <= (i * Ty + k) * W) by (apply Z.mul_nonneg_nonneg; lia).
    set (px := (i * Ty + k) * W + j * Tx) in *.
    assert (Hpx : 0 <= px /\ px + cols j <= H * W) by (unfold px; lia).
    rewrite (u32_id px) by lia.
    assert (Hrs : 0 <= bpp * px < 2 ^ 63) by (clear - Hpx Hbpp Hfr Hc; nia).
    rewrite (u64_id (bpp * px)) by lia. rewrite (s64_id (bpp * px)) by lia.
    assert (Hnb : 0 < cols j * bpp < 2 ^ 63) by (clear - Hpx Hbpp Hfr Hc; nia).
    rewrite (u64_id (cols j * bpp)) by lia. rewrite (s64_id (cols j * bpp)) by lia.
    assert (Hst : bpp * px + cols j * bpp <= H * W * bpp) by (clear - Hpx Hbpp; nia).
    rewrite (u64_id (bpp * px + cols j * bpp)) by lia.
    rewrite (proj2 (Z.ltb_ge (zlen data) _)) by lia.
    assert (Hkp : 0 <= k * (Tx * bpp)) by (apply Z.mul_nonneg_nonneg; lia).
    assert (Hkp2 : (k + 1) * (Tx * bpp) <= Ty * (Tx * bpp)) by (apply Z.mul_le_mono_nonneg_r; lia).
    assert (Hcb : cols j * bpp <= Tx * bpp) by (apply Z.mul_le_mono_nonneg_r; lia).
    assert (Hpos : E + k * (Tx * bpp) + cols j * bpp <= B) by lia.
    rewrite (proj2 (Z.ltb_ge (zlen chunk - (E + k * (Tx * bpp))) _)) by lia.
    rewrite (proj2 (Z.ltb_ge (E + k * (Tx * bpp)) 0)) by lia.
    rewrite (proj2 (Z.ltb_ge (bpp * px) 0)) by lia.
    rewrite (proj2 (Z.ltb_ge (cols j * bpp) 0)) by lia. cbn [orb].
    assert (Hrows : rows i (k + 1) - rows i k = 1) by (unfold rows; lia).
    assert (Hw2 : w + cols j * bpp < 2 ^ 64) by lia.
    rewrite (u64_id (w + cols j * bpp)) by lia.
    set (sl := slice data (bpp * px) (cols j * bpp)).
    assert (Hsl : zlen sl = cols j * bpp) by (apply slice_length; lia).
    eexists. split; [rewrite Hrows, Z.mul_1_l; reflexivity|]. split.
    + rewrite splice_length; lia.
    + intros o Ho. rewrite getb_splice by lia. rewrite Hsl, Hinv by auto.
      unfold tile_byte.
      destruct (Z.leb_spec 0 (o - E)) as [Hr|Hr]; cbn [andb].
      2:{ rewrite (proj2 (Z.leb_gt (E + k * (Tx * bpp)) o)) by lia. auto. }
      destruct (Hinb o Ho Hr) as (D1 & D2 & D3).
      set (ky := (o - E) / (Tx * bpp)) in *. set (s := (o - E) mod (Tx * bpp)) in *.
      assert (Hsb : s / bpp < Tx) by (apply Z.div_lt_upper_bound; lia).
      rewrite (region_cols j s) by lia. rewrite (proj2 (Z.ltb_lt (s / bpp) Tx)) by lia. cbn [negb andb].
      rewrite orb_false_r. fold (cols j).
      destruct (Z.lt_trichotomy ky k) as [L|[L|L]].
      * rewrite (proj2 (Z.ltb_lt ky k)), (proj2 (Z.ltb_lt ky (k + 1))) by lia.
        assert ((ky + 1) * (Tx * bpp) <= k * (Tx * bpp)) by (apply Z.mul_le_mono_nonneg_r; lia).
        rewrite (proj2 (Z.leb_gt (E + k * (Tx * bpp)) o)) by lia. auto.
      * rewrite L. rewrite (proj2 (Z.ltb_ge k k)), (proj2 (Z.ltb_lt k (k + 1))) by lia. cbn [andb].
        rewrite (proj2 (Z.ltb_lt (i * Ty + k) H)) by lia. cbn [andb].
        rewrite L in D1. rewrite (proj2 (Z.leb_le (E + k * (Tx * bpp)) o)) by lia. cbn [andb].
        destruct (Z.ltb_spec s (cols j * bpp)).
        -- rewrite (proj2 (Z.ltb_lt o _)) by lia. unfold sl. rewrite getb_slice by lia. f_equal. lia.
        -- rewrite (proj2 (Z.ltb_ge o _)) by lia. auto.
      * rewrite (proj2 (Z.ltb_ge ky k)), (proj2 (Z.ltb_ge ky (k + 1))) by lia.
        assert ((k + 1) * (Tx * bpp) <= ky * (Tx * bpp)) by (apply Z.mul_le_mono_nonneg_r; lia).
        rewrite (proj2 (Z.ltb_ge o (E + k * (Tx * bpp) + cols j * bpp))) by lia.
        rewrite andb_false_r. auto.
  - exists chunk. split; [|split; auto].
    + replace (rows i (k + 1) - rows i k) with 0 by (unfold rows; lia). rewrite !Z.mul_0_l, Z.add_0_r. auto.
    + intros o Ho. rewrite Hinv by auto. unfold tile_byte.
      destruct (Z.leb_spec 0 (o - E)) as [Hr|Hr]; cbn [andb]; auto.
      destruct (Hinb o Ho Hr) as (D1 & D2 & D3).
      set (ky := (o - E) / (Tx * bpp)) in *.
      destruct (Z.lt_trichotomy ky k) as [L|[L|L]].
      * rewrite (proj2 (Z.ltb_lt ky k)), (proj2 (Z.ltb_lt ky (k + 1))) by lia. auto.
      * rewrite L. rewrite (proj2 (Z.ltb_ge (i * Ty + k) H)) by lia. rewrite !andb_false_r. auto.
      * rewrite (proj2 (Z.ltb_ge ky k)), (proj2 (Z.ltb_ge ky (k + 1))) by lia. auto.
Qed.

(** all rows of one tile *)
Lemma copy_tile i j chunk w :
  0 <= i -> 0 <= j -> i * Ty < H -> j * Tx < W ->
  zlen chunk = B -> 0 <= w -> w + 2 * (H * W * bpp) < 2 ^ 64 ->
  exists chunk',
    floop (copy_row data bpp H W Ty Tx E i j) (zseq Ty) (chunk, w)
      = Ok ((chunk', w + rows i Ty * cols j * bpp), false)
    /\ zlen chunk' = B
    /\ (forall o, 0 <= o < B -> getb chunk' o = tile_byte i j Ty (getb chunk o) o).
Proof.
  intros Hi Hj HiH HjW Hlen Hw Hwb.
  assert (HiT : 0 <= i * Ty) by (apply Z.mul_nonneg_nonneg; lia).
  assert (HjT : 0 <= j * Tx) by (apply Z.mul_nonneg_nonneg; lia).
  assert (Hc : 0 < cols j <= W) by (unfold cols; lia).
  destruct (floop_inv (copy_row data bpp H W Ty Tx E i j)
    (fun k st => zlen (fst st) = B /\ snd st = w + rows i k * cols j * bpp /\
       (forall o, 0 <= o < B -> getb (fst st) o = tile_byte i j k (getb chunk o) o)) Ty (chunk, w))
    as ([chunk' w'] & Hrun & HI1 & HI2 & HI3); [lia| | |].
  - cbn [fst snd]. split; auto. split.
    + unfold rows. replace (Z.min H (i * Ty + 0) - i * Ty) with 0 by lia. lia.
    + intros. rewrite tile_byte_0; auto.
  - intros k [ch wk] Hk (A1 & A2 & A3). cbn [fst snd] in *.
    assert (Hr : 0 <= rows i k <= H) by (unfold rows; lia).
    assert (Hrc : 0 <= rows i k * cols j <= H * W) by (split; [apply Z.mul_nonneg_nonneg; lia|apply Z.mul_le_mono_nonneg; lia]).
    assert (Hrb : 0 <= rows i k * cols j * bpp <= H * W * bpp) by (split; [apply Z.mul_nonneg_nonneg; lia|apply Z.mul_le_mono_nonneg_r; lia]).
    destruct (copy_row_exact i j k ch chunk wk) as (ch' & R1 & R2 & R3); auto; try lia.
    eexists. split; [exact R1|]. cbn [fst snd]. repeat split; auto. lia.
  - cbn [fst snd] in *. exists chunk'. rewrite <- HI2. auto.
Qed.
End Tile.

Lemma written_bound H W bpp iT r jT :
  0 < bpp -> 0 < W -> 0 <= iT < H -> 0 < r -> iT + r <= H -> 0 <= jT -> H * W * bpp < 2 ^ 35 ->
  0 <= iT * W * bpp + r * Z.min W jT * bpp
  /\ iT * W * bpp + r * Z.min W jT * bpp + 2 * (H * W * bpp) < 2 ^ 64.
Proof.
  intros Hb HW Hi Hr Hrr Hj Hlt.
  assert (Hm : 0 <= Z.min W jT <= W) by lia. set (m := Z.min W jT) in *. clearbody m. clear Hj jT.
  assert (A1 : 0 <= iT * W * bpp) by (apply Z.mul_nonneg_nonneg; [apply Z.mul_nonneg_nonneg|]; lia).
  assert (A2 : 0 <= r * m * bpp) by (apply Z.mul_nonneg_nonneg; [apply Z.mul_nonneg_nonneg|]; lia).
  assert (A3 : iT * W * bpp <= H * W * bpp) by (apply Z.mul_le_mono_nonneg_r; [|apply Z.mul_le_mono_nonneg_r]; lia).
  assert (A4 : r * m * bpp <= H * W * bpp) by (apply Z.mul_le_mono_nonneg_r; [lia|apply Z.mul_le_mono_nonneg; lia]).
  clear - A1 A2 A3 A4 Hlt. lia.
Qed.

Section Frame.
Variables (bpp dt : Z) (d0 : dim) (mids : list dim) (dy dx : dim).
Let ds := d0 :: mids ++ [dy; dx].
Hypothesis Hf : fits bpp d0 mids dy dx.
Hypothesis Hbpp : bytes_of_type dt = Ok bpp.
Let H := d_array dy. Let W := d_array dx. Let Ty := d_chunk dy. Let Tx := d_chunk dx.
Let ny := nch dy. Let nx := nch dx.
Let A := map d_array mids. Let C := map d_chunk mids. Let N := map nch mids.
Let nbuf := prodZ N * (ny * nx).
Let B := prodZ (map d_chunk ds) * bpp.

(** tile group and slot inside the chunk of frame [f] *)
Definition frame_group (f : Z) : Z := ravel N (zip_with Z.div (mid_coords mids f) C).
Definition frame_slot (f : Z) : Z :=
  ravel (d_chunk d0 :: C) ((f / prodZ A) mod d_chunk d0 :: zip_with Z.modulo (mid_coords mids f) C).

(** byte [o] of chunk buffer [c] after frame [f] with content [data] was copied *)
Definition frame_byte (data : list Z) (f c : Z) (old o : Z) : Z :=
  let i := (c mod (ny * nx)) / nx in
  let j := c mod nx in
  let r := o mod (Ty * Tx * bpp) in
  let y := i * Ty + r / (Tx * bpp) in
  let s := r mod (Tx * bpp) in
  if (c / (ny * nx) =? frame_group f) && (o / (Ty * Tx * bpp) =? frame_slot f)
     && (y <? H) && (j * Tx + s / bpp <? W)
  then getb data ((y * W + j * Tx) * bpp + s) else old.

Lemma fr_ok : 0 < H /\ 0 < W /\ 0 < Ty < 2 ^ 31 /\ 0 < Tx /\ H + Ty <= 2 ^ 32 /\ W + Tx <= 2 ^ 32 /\ H * W < 2 ^ 32.
Proof.
  destruct (inner_dy _ _ _ _ _ Hf) as (?&?&?), (inner_dx _ _ _ _ _ Hf) as (?&?&?).
  pose proof (fit_rows _ _ _ _ _ Hf). pose proof (fit_frame _ _ _ _ _ Hf). unfold H, W, Ty, Tx. lia.
Qed.

Lemma frame_group_bound f : 0 <= frame_group f < prodZ N.
Proof. apply ravel_bound. eapply mid_chunk_bounds; eauto. Qed.
Lemma frame_slot_bound f : 0 <= frame_slot f < d_chunk d0 * prodZ C.
Proof.
  apply (ravel_bound (d_chunk d0 :: C)). simpl. split; [apply Z.mod_pos_bound; apply (fit_c0 _ _ _ _ _ Hf)|].
  eapply mid_inner_bounds; eauto.
Qed.

Lemma write_frame_to_chunks_exact a data :
  c_dims (a_cfg a) = ds -> c_dtype (a_cfg a) = dt -> 0 <= a_frames a < 2 ^ 32 ->
  zlen (a_bufs a) = nbuf -> Forall (fun b => zlen b = B) (a_bufs a) -> zlen data = H * W * bpp ->
  exists bufs',
    write_frame_to_chunks a data = Ok (bufs', H * W * bpp)
    /\ zlen bufs' = nbuf /\ Forall (fun b => zlen b = B) bufs'
    /\ (forall c o, 0 <= c < nbuf -> 0 <= o < B ->
          getb (nth (Z.to_nat c) bufs' []) o
          = frame_byte data (a_frames a) c (getb (nth (Z.to_nat c) (a_bufs a) []) o) o).
Proof.
  intros Hds Hdt Hfr Hnb HB Hdata. set (f := a_frames a) in *.
  destruct fr_ok as (HH & HW & HTy & HTx & HyB & HxB & HHW).
  pose proof (fit_bpp _ _ _ _ _ Hf) as Hb.
  destruct (nch_bound _ _ _ _ _ Hf) as (HN & Hny & Hnx & Hnn). fold N ny nx in HN, Hny, Hnx, Hnn.
  assert (HBb : B < 2 ^ 63) by (unfold B; pose proof (fit_bytes _ _ _ _ _ Hf) as X; fold ds in X; lia).
  assert (HBE : B = d_chunk d0 * prodZ C * (Ty * Tx * bpp)).
  { unfold B, ds. rewrite chk_prod_split. fold C. fold Ty Tx. lia. }
  pose proof (frame_group_bound f) as HG. pose proof (frame_slot_bound f) as HK.
  assert (HTT : 0 < Ty * Tx * bpp) by (apply Z.mul_pos_pos; [apply Z.mul_pos_pos|]; lia).
  set (TT := Ty * Tx * bpp) in *.
  set (G := frame_group f * (ny * nx)). set (E := frame_slot f * TT).
  assert (HE0 : 0 <= E) by (apply Z.mul_nonneg_nonneg; lia).
  assert (HEB : E + TT <= B).
  { assert ((frame_slot f + 1) * TT <= d_chunk d0 * prodZ C * TT) by (apply Z.mul_le_mono_nonneg_r; lia). unfold E; lia. }
  assert (Hyx : 0 < ny * nx) by (apply Z.mul_pos_pos; lia).
  assert (HG0 : 0 <= G) by (apply Z.mul_nonneg_nonneg; lia).
  assert (HGn : G + ny * nx <= nbuf).
  { assert ((frame_group f + 1) * (ny * nx) <= prodZ N * (ny * nx)) by (apply Z.mul_le_mono_nonneg_r; lia). unfold G, nbuf; lia. }
  unfold write_frame_to_chunks. rewrite Hds, Hdt, Hbpp. cbn [obind]. fold f.
  assert (Hwd : width_dim ds = dx) by apply width_dim_eq.
  assert (Hhd : height_dim ds = dy) by apply height_dim_eq.
  rewrite Hwd, Hhd. fold H W Ty Tx.
  rewrite (proj2 (Z.eqb_neq Tx 0)), (proj2 (Z.eqb_neq Ty 0)) by lia. cbn [orb].
  unfold ds. rewrite (tile_group_offset_exact bpp _ _ _ _ Hf) by auto. cbn [obind].
  fold ds. fold A C N ny nx. fold (frame_group f). fold G.
  unfold ds. rewrite (chunk_internal_offset_exact bpp dt _ _ _ _ Hf Hbpp) by lia. cbn [obind].
  fold ds. fold A C Ty Tx. fold (frame_slot f).
  fold TT. fold E. rewrite (s64_id E) by lia.
  rewrite (u32_id (W + Tx - 1)), (u32_id (H + Ty - 1)) by lia.
  change ((W + Tx - 1) / Tx) with nx. change ((H + Ty - 1) / Ty) with ny.
  assert (Hnyn : ny < 2 ^ 31 /\ nx < 2 ^ 31 /\ ny * nx < 2 ^ 31).
  { clear - Hnn HN Hny Hnx. assert (1 * (ny * nx) <= prodZ N * (ny * nx)) by (apply Z.mul_le_mono_nonneg_r; nia). nia. }
  unfold int_range. rewrite (proj2 (Z.ltb_lt ny _)), (proj2 (Z.ltb_lt nx _)), (proj2 (Z.ltb_lt Ty _)) by lia. cbn [obind].
  assert (HHWb : 0 < H * W /\ 0 < H * W * bpp < 2 ^ 35).
  { assert (0 < H * W) by (apply Z.mul_pos_pos; lia). split; auto. split; [apply Z.mul_pos_pos; lia|].
    clear - Hb HHW H0. nia. }
  assert (HnyS : (ny - 1) * Ty < H).
  { pose proof (ceil_div_spec H Ty ltac:(lia)). change (ceil_div H Ty) with ny in *. lia. }
  assert (HnxS : (nx - 1) * Tx < W /\ W <= nx * Tx /\ H <= ny * Ty).
  { pose proof (ceil_div_spec W Tx ltac:(lia)). change (ceil_div W Tx) with nx in *.
    pose proof (ceil_div_spec H Ty ltac:(lia)). change (ceil_div H Ty) with ny in *. lia. }
  (* invariant after m tiles *)
  set (TB := fun c old o => tile_byte data bpp H W Ty Tx E ((c - G) / nx) ((c - G) mod nx) Ty old o).
  set (Inv := fun m (bufs : list (list Z)) =>
     zlen bufs = nbuf /\ Forall (fun b => zlen b = B) bufs /\
     (forall c o, 0 <= c < nbuf -> 0 <= o < B ->
        getb (nth (Z.to_nat c) bufs []) o =
        if (G <=? c) && (c <? G + m) then TB c (getb (nth (Z.to_nat c) (a_bufs a) []) o) o
        else getb (nth (Z.to_nat c) (a_bufs a) []) o)).
  edestruct (floop_inv (S := list (list Z) * Z)) with (n := ny)
    (I := fun i (st : list (list Z) * Z) => Inv (i * nx) (fst st) /\ snd st = Z.min H (i * Ty) * W * bpp)
    as ([bufs' w'] & Hrun & HI1 & HI2); [lia| | |].
  3:{ rewrite Hrun. cbn [fst snd obind] in *. exists bufs'.
      destruct HI1 as (I1 & I2 & I3). split; [|split; [auto|split; [auto|]]].
      - rewrite HI2. do 3 f_equal. rewrite Z.min_l by lia. auto.
      - intros c o Hc Ho. rewrite I3 by auto.
        unfold frame_byte. fold TT. fold f.
        assert (Hcd : c = ny * nx * (c / (ny * nx)) + c mod (ny * nx)) by (apply Z.div_mod; lia).
        assert (Hod : o = TT * (o / TT) + o mod TT) by (apply Z.div_mod; lia).
        pose proof (Z.mod_pos_bound c (ny * nx) ltac:(lia)) as Hcm.
        pose proof (Z.mod_pos_bound o TT ltac:(lia)) as Hom.
        destruct (Z.eqb_spec (c / (ny * nx)) (frame_group f)) as [Hg|Hg]; cbn [andb].
        + rewrite Hg in Hcd. rewrite (proj2 (Z.leb_le G c)) by (unfold G; lia).
          rewrite (proj2 (Z.ltb_lt c (G + ny * nx))) by (unfold G; lia). cbn [andb].
          unfold TB, tile_byte. replace (c - G) with (c mod (ny * nx)) by (unfold G; lia).
          rewrite (mod_mod_mul c ny nx) by lia.
          destruct (Z.eqb_spec (o / TT) (frame_slot f)) as [Hk|Hk]; cbn [andb].
          * rewrite Hk in Hod. replace (o - E) with (o mod TT) by (unfold E; lia).
            rewrite (proj2 (Z.leb_le 0 (o mod TT))) by lia. cbn [andb].
            rewrite (proj2 (Z.ltb_lt (o mod TT / (Tx * bpp)) Ty)). 2:{ apply Z.div_lt_upper_bound; [apply Z.mul_pos_pos; lia|]. unfold TT in *; lia. }
            cbn [andb]. auto.
          * destruct (Z.leb_spec 0 (o - E)) as [Hr|Hr]; cbn [andb]; auto.
            rewrite (proj2 (Z.ltb_ge ((o - E) / (Tx * bpp)) Ty)); auto.
            assert (HTb : 0 < Tx * bpp) by (apply Z.mul_pos_pos; lia).
            apply Z.div_le_lower_bound; auto.
            assert (Hge : frame_slot f + 1 <= o / TT).
            { destruct (Z.lt_trichotomy (o / TT) (frame_slot f)) as [L|[L|L]]; try lia. exfalso.
              assert ((o / TT + 1) * TT <= frame_slot f * TT) by (apply Z.mul_le_mono_nonneg_r; lia).
              unfold E in *; lia. }
            assert ((frame_slot f + 1) * TT <= o / TT * TT) by (apply Z.mul_le_mono_nonneg_r; lia).
            unfold E, TT in *; lia.
        + destruct (Z.leb_spec G c); destruct (Z.ltb_spec c (G + ny * nx)); cbn [andb]; auto. exfalso. apply Hg.
          apply (div_unique' c (ny * nx) (frame_group f) (c - G)); unfold G in *; lia. }
  - cbn [fst snd]. split; [|rewrite Z.min_r by lia; lia].
    split; [auto|split; [auto|]]. intros c o Hc Ho.
    destruct (Z.leb_spec G c); destruct (Z.ltb_spec c (G + 0 * nx)); cbn [andb]; auto. lia.
  - intros i [bufs w] Hi ((I1 & I2 & I3) & Iw). cbn [fst snd] in *.
    assert (HiT : 0 <= i * Ty) by (apply Z.mul_nonneg_nonneg; lia).
    assert (HiH : i * Ty < H).
    { assert (i * Ty <= (ny - 1) * Ty) by (apply Z.mul_le_mono_nonneg_r; lia). lia. }
    assert (Hin : 0 <= i * nx /\ (i + 1) * nx <= ny * nx).
    { split; [apply Z.mul_nonneg_nonneg; lia|apply Z.mul_le_mono_nonneg_r; lia]. }
    set (r := Z.min H (i * Ty + Ty) - i * Ty). assert (Hr : 0 < r) by (unfold r; lia).
    assert (Hrr : i * Ty + r <= H) by (unfold r; lia).
    edestruct (floop_inv (S := list (list Z) * Z)) with (n := nx)
      (I := fun j (st : list (list Z) * Z) => Inv (i * nx + j) (fst st)
              /\ snd st = i * Ty * W * bpp + r * Z.min W (j * Tx) * bpp)
      as ([bufs2 w2] & Hrun & HJ1 & HJ2); [lia| | |].
    3:{ eexists. split; [exact Hrun|]. cbn [fst snd] in *. split.
        - replace ((i + 1) * nx) with (i * nx + nx) by lia. exact HJ1.
        - rewrite HJ2. rewrite (Z.min_l W) by lia. unfold r.
          replace ((i + 1) * Ty) with (i * Ty + Ty) by lia. lia. }
    + cbn [fst snd]. rewrite Z.add_0_r. split; [split; auto|]. rewrite Iw.
      rewrite !Z.min_r by lia. lia.
    + intros j [bs wj] Hj ((J1 & J2 & J3) & Jw). cbn [fst snd] in *.
      assert (HjT : 0 <= j * Tx) by (apply Z.mul_nonneg_nonneg; lia).
      assert (HjW : j * Tx < W).
      { assert (j * Tx <= (nx - 1) * Tx) by (apply Z.mul_le_mono_nonneg_r; lia). lia. }
      rewrite (u32_id (i * nx)) by lia. rewrite (u32_id (G + i * nx)) by lia.
      rewrite (u32_id (G + i * nx + j)) by lia.
      set (ci := G + i * nx + j).
      assert (Hci : 0 <= ci < nbuf) by (unfold ci; clear - HG0 HGn Hin Hj; lia).
      destruct (nth_error bs (Z.to_nat ci)) as [chunk|] eqn:Hne.
      2:{ apply nth_error_None in Hne. unfold zlen in J1. clear - Hne J1 Hci. lia. }
      pose proof (nth_error_nth _ _ [] Hne) as Hnth.
      assert (Hchunk : zlen chunk = B).
      { apply nth_error_In in Hne. rewrite Forall_forall in J2. apply J2; auto. }
      assert (Hwb : 0 <= wj /\ wj + 2 * (H * W * bpp) < 2 ^ 64).
      { rewrite Jw. clear - Hb HHWb HiT HiH Hrr Hr HjT HjW HW HH. apply written_bound; lia. }
      destruct (copy_tile data bpp H W Ty Tx E B Hb HH HW HTy HTx HyB HxB HHW Hdata HE0 HEB HBb i j chunk wj)
        as (ch' & R1 & R2 & R3); try lia.
      rewrite R1. cbn [obind]. eexists. split; [reflexivity|]. cbn [fst snd]. split.
      * split; [|split].
        -- unfold zlen in *. rewrite upd_length. auto.
        -- apply Forall_forall. intros b Hb2. apply In_nth with (d := []) in Hb2 as (k & Hk & <-).
           rewrite upd_length in Hk. rewrite nth_upd by (unfold zlen in J1; clear - J1 Hci; lia).
           destruct (Nat.eqb (Z.to_nat ci) k); auto. rewrite Forall_forall in J2. apply J2, nth_In; auto.
        -- intros c o Hc Ho. rewrite nth_upd by (unfold zlen in J1; clear - J1 Hci; lia).
           destruct (Nat.eqb_spec (Z.to_nat ci) (Z.to_nat c)) as [Hq|Hq].
           ++ assert (c = ci) by (clear - Hq Hc Hci; lia). subst c. rewrite R3 by auto. rewrite <- Hnth, J3 by auto.
              rewrite (proj2 (Z.ltb_ge ci (G + (i * nx + j)))) by (unfold ci; lia). rewrite andb_false_r.
              rewrite (proj2 (Z.leb_le G ci)) by (unfold ci; lia).
              rewrite (proj2 (Z.ltb_lt ci (G + (i * nx + (j + 1))))) by (unfold ci; lia). cbn [andb].
              unfold TB. rewrite (div_unique' (ci - G) nx i j), (mod_unique' (ci - G) nx i j); unfold ci; try lia.

           ++ rewrite J3 by auto.
              destruct (Z.leb_spec G c); cbn [andb]; auto.
              destruct (Z.ltb_spec c (G + (i * nx + j))); destruct (Z.ltb_spec c (G + (i * nx + (j + 1)))); auto.
              ** exfalso. clear - H1 H2. lia.
              ** exfalso. apply Hq. f_equal. unfold ci. clear - H1 H2. lia.
      * rewrite Jw. unfold rows, cols. fold r.
        replace ((j + 1) * Tx) with (j * Tx + Tx) by ring. rewrite (Z.min_comm W (j * Tx + Tx)).
        rewrite (Z.min_r W (j * Tx)) by lia. lia.
Qed.
End Frame.
