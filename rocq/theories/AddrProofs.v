(** Frame-to-chunk addressing (C08) in terms of Zarr coordinates. *)
Require Import ZArith List Bool String Lia Zify.
Require Import Verif.Base Verif.Spec Verif.Dim Verif.Radix Verif.Limits Verif.DimProofs Verif.World Verif.Writer Verif.TileProofs Verif.BufProofs.
Import ListNotations.
Open Scope list_scope.
Open Scope Z_scope.

Section Addr.
Variables (bpp dt : Z) (d0 : dim) (mids : list dim) (dy dx : dim).
Let ds := d0 :: mids ++ [dy; dx].
Hypothesis Hf : fits bpp d0 mids dy dx.
Hypothesis Hbpp : bytes_of_type dt = Ok bpp.
Let H := d_array dy. Let W := d_array dx. Let Ty := d_chunk dy. Let Tx := d_chunk dx.
Let ny := nch dy. Let nx := nch dx.
Let A := map d_array mids. Let C := map d_chunk mids. Let N := map nch mids.
Let C0 := d_chunk d0.
Let grid := map nch (mids ++ [dy; dx]).
Let chunks := map d_chunk ds.
Let nbuf := prodZ grid.
Let B := prodZ chunks * bpp.
Let P := C0 * prodZ A.
Let num f y x := chunk_number chunks grid (pixel_index A f y x).
Let off f y x b := byte_offset chunks bpp (pixel_index A f y x) b.

Lemma addr_read (F : list (list Z)) f y x b :
  0 <= f -> 0 <= y < H -> 0 <= x < W -> 0 <= b < bpp ->
  0 <= num f y x < nbuf /\ 0 <= off f y x b < B /\
  spec_byte bpp d0 mids dy dx F (f / P) (num f y x) (off f y x b)
  = getb (nth (Z.to_nat f) F []) ((y * W + x) * bpp + b).
Proof.
  intros Hf0 Hy Hx Hb.
  pose proof (PA_pos _ _ _ _ _ Hf) as HPA. fold A in HPA.
  pose proof (mid_coords_bounds _ _ _ _ _ Hf f) as Hm. fold A in Hm. unfold mid_coords in Hm. fold A in Hm.
  assert (Ht : 0 <= f / prodZ A) by (apply Z.div_pos; lia).
  destruct (spec_byte_read bpp d0 mids dy dx Hf F (f / prodZ A) _ y x b Ht Hm Hy Hx Hb) as (R1 & R2 & R3 & R4 & R5).
  fold ds A C0 in R1, R2, R3, R4, R5. fold grid chunks in R1, R2, R3, R4, R5.
  assert (En : prodZ (map nch mids) * (nch dy * nch dx) = nbuf) by (unfold nbuf, grid; rewrite nch_prod_split; auto).
  rewrite En in R3. fold B in R4.
  split; [exact R3|]. split; [exact R4|].
  assert (EP : f / P = f / prodZ A / C0).
  { unfold P. pose proof (fit_c0 _ _ _ _ _ Hf). rewrite Z.mul_comm, <- Z.div_div by (fold C0 in H0; lia). auto. }
  rewrite EP. unfold num, off, chunk_number, byte_offset, pixel_index. cbn [unravel app].
  rewrite R5. unfold appended_byte. fold W. f_equal. f_equal.
  pose proof (A_pos _ _ _ _ _ Hf) as HA. fold A in HA.
  rewrite ravel_unravel by (auto; apply Z.mod_pos_bound; lia).
  pose proof (Z.div_mod f (prodZ A) ltac:(lia)). lia.
Qed.

Lemma addr_inj f f' y x y' x' b b' :
  0 <= f -> 0 <= f' -> f / P = f' / P ->
  0 <= y < H -> 0 <= x < W -> 0 <= b < bpp -> 0 <= y' < H -> 0 <= x' < W -> 0 <= b' < bpp ->
  num f y x = num f' y' x' -> off f y x b = off f' y' x' b' ->
  f = f' /\ y = y' /\ x = x' /\ b = b'.
Proof.
  intros Hf0 Hf0' He Hy Hx Hb Hy' Hx' Hb' En Eo.
  pose proof (PA_pos _ _ _ _ _ Hf) as HPA. fold A in HPA.
  pose proof (A_pos _ _ _ _ _ Hf) as HA. fold A in HA.
  pose proof (fit_c0 _ _ _ _ _ Hf) as HC0. fold C0 in HC0.
  assert (HC : allpos chunks).
  { unfold chunks, ds. cbn [map]. apply allpos_cons. split; [fold C0; lia|]. apply inner_allpos_chk, (fit_inner _ _ _ _ _ Hf). }
  assert (HL : forall g u v, List.length (pixel_index A g u v) = List.length chunks).
  { intros. unfold pixel_index, chunks, ds. rewrite app_length, unravel_length. unfold A. cbn [List.length map]. rewrite !map_length, app_length. simpl. lia. }
  assert (EP : forall g, g / P = g / prodZ A / C0).
  { intros. unfold P. rewrite Z.mul_comm, <- Z.div_div by lia. auto. }
  assert (Hg : forall g u v, 0 <= g -> 0 <= u < H -> 0 <= v < W ->
     hd 0 (zip_with Z.div (pixel_index A g u v) chunks) = g / P /\ in_bounds grid (tl (zip_with Z.div (pixel_index A g u v) chunks))).
  { intros g u v G1 G2 G3. pose proof (mid_coords_bounds _ _ _ _ _ Hf g) as Hm. fold A in Hm. unfold mid_coords in Hm. fold A in Hm.
    destruct (spec_byte_read bpp d0 mids dy dx Hf [] (g / prodZ A) _ u v 0 ltac:(apply Z.div_pos; lia) Hm G2 G3 ltac:(lia)) as (R1 & R2 & _).
    split; [rewrite EP; exact R1|exact R2]. }
  assert (Ed : zip_with Z.div (pixel_index A f y x) chunks = zip_with Z.div (pixel_index A f' y' x') chunks).
  { destruct (Hg f y x) as [G1 G2]; auto. destruct (Hg f' y' x') as [G1' G2']; auto.
    unfold num, chunk_number in En.
    assert (Et := ravel_inj _ _ _ G2 G2' En).
    assert (HLz : forall g u v, List.length (zip_with Z.div (pixel_index A g u v) chunks) = S (List.length mids + 2)).
    { intros. rewrite zip_with_length by apply HL. rewrite HL. unfold chunks, ds. cbn [List.length map]. rewrite map_length, app_length. simpl. lia. }
    pose proof (HLz f y x) as L1. pose proof (HLz f' y' x') as L2.
    destruct (zip_with Z.div (pixel_index A f y x) chunks) as [|h tl1]; [discriminate|].
    destruct (zip_with Z.div (pixel_index A f' y' x') chunks) as [|h' tl2]; [discriminate|].
    cbn [hd tl] in *. subst. congruence. }
  assert (Er : ravel chunks (zip_with Z.modulo (pixel_index A f y x) chunks) = ravel chunks (zip_with Z.modulo (pixel_index A f' y' x') chunks) /\ b = b').
  { unfold off, byte_offset in Eo. revert Eo.
    generalize (ravel chunks (zip_with Z.modulo (pixel_index A f y x) chunks)) (ravel chunks (zip_with Z.modulo (pixel_index A f' y' x') chunks)).
    intros r r' Eo. clear - Eo Hb Hb'.
    assert (r = r') by (rewrite <- (div_unique' (r * bpp + b) bpp r b), <- (div_unique' (r' * bpp + b') bpp r' b'); [f_equal; auto|lia|lia|lia|lia]).
    subst. split; [auto|lia]. }
  destruct Er as [Er Eb].
  assert (Em : zip_with Z.modulo (pixel_index A f y x) chunks = zip_with Z.modulo (pixel_index A f' y' x') chunks).
  { apply (ravel_inj chunks); auto; apply zip_mod_bounds; auto. }
  assert (Ei : pixel_index A f y x = pixel_index A f' y' x').
  { apply (div_mod_ext chunks); auto. }
  unfold pixel_index in Ei.
  assert (Ei' : (unravel (0 :: A) f ++ [y]) ++ [x] = (unravel (0 :: A) f' ++ [y']) ++ [x']) by (rewrite <- !app_assoc; exact Ei).
  apply app_inj_tail in Ei' as [Ei' ->]. apply app_inj_tail in Ei' as [Eu ->].
  repeat split; auto. cbn [unravel] in Eu. inversion Eu as [[E1 E2]].
  assert (f mod prodZ A = f' mod prodZ A).
  { rewrite <- (ravel_unravel A (f mod prodZ A)), <- (ravel_unravel A (f' mod prodZ A)) by (auto; apply Z.mod_pos_bound; lia). congruence. }
  rewrite (Z.div_mod f (prodZ A)), (Z.div_mod f' (prodZ A)) by lia. congruence.
Qed.

(** every byte a frame overwrites is the location of one of its pixels *)
Lemma addr_surj data f c o old :
  0 <= f -> 0 <= c < nbuf -> 0 <= o < B ->
  (forall y x b, 0 <= y < H -> 0 <= x < W -> 0 <= b < bpp -> ~ (num f y x = c /\ off f y x b = o)) ->
  frame_byte bpp d0 mids dy dx data f c old o = old.
Proof.
  intros Hf0 Hc Ho Hno. unfold frame_byte. fold ny nx Ty Tx H W.
  destruct (fr_ok _ _ _ _ _ Hf) as (HH & HW & HTy & HTx & HyB & HxB & HHW). fold H W Ty Tx in HH, HW, HTy, HTx, HyB, HxB, HHW.
  pose proof (fit_bpp _ _ _ _ _ Hf) as Hb.
  destruct (nch_bound _ _ _ _ _ Hf) as (HN & Hny & Hnx & Hnn). fold N ny nx in HN, Hny, Hnx, Hnn.
  destruct ((c / (ny * nx) =? frame_group mids f) && (o / (Ty * Tx * bpp) =? frame_slot d0 mids f)
    && (c mod (ny * nx) / nx * Ty + o mod (Ty * Tx * bpp) / (Tx * bpp) <? H)
    && (c mod nx * Tx + o mod (Ty * Tx * bpp) mod (Tx * bpp) / bpp <? W)) eqn:E; auto.
  exfalso. rewrite !andb_true_iff, !Z.eqb_eq, !Z.ltb_lt in E. destruct E as (((E1 & E2) & E3) & E4).
  set (TT := Ty * Tx * bpp) in *.
  assert (HTT : 0 < TT) by (unfold TT; apply Z.mul_pos_pos; [apply Z.mul_pos_pos|]; lia).
  assert (HTb : 0 < Tx * bpp) by (apply Z.mul_pos_pos; lia).
  set (r := o mod TT) in *. set (s := r mod (Tx * bpp)) in *.
  set (i := c mod (ny * nx) / nx) in *. set (j := c mod nx) in *.
  assert (Hr : 0 <= r < TT) by (apply Z.mod_pos_bound; lia).
  assert (Hs : 0 <= s < Tx * bpp) by (apply Z.mod_pos_bound; lia).
  assert (Hk : 0 <= r / (Tx * bpp) < Ty).
  { split; [apply Z.div_pos; lia|]. apply Z.div_lt_upper_bound; auto. unfold TT in Hr. lia. }
  assert (Hl : 0 <= s / bpp < Tx).
  { split; [apply Z.div_pos; lia|]. apply Z.div_lt_upper_bound; lia. }
  assert (Hj : 0 <= j < nx) by (apply Z.mod_pos_bound; lia).
  assert (Hcn : 0 <= c mod (ny * nx) < ny * nx) by (apply Z.mod_pos_bound; apply Z.mul_pos_pos; lia).
  assert (Hi : 0 <= i < ny). { unfold i. split; [apply Z.div_pos; lia|]. apply Z.div_lt_upper_bound; lia. }
  set (k := r / (Tx * bpp)) in *. set (l := s / bpp) in *.
  assert (Bb : 0 <= s mod bpp < bpp) by (apply Z.mod_pos_bound; lia).
  assert (B0 : 0 <= i * Ty) by (apply Z.mul_nonneg_nonneg; lia).
  assert (B1 : 0 <= j * Tx) by (apply Z.mul_nonneg_nonneg; lia).
  assert (By : 0 <= i * Ty + k < H) by lia.
  assert (Bx : 0 <= j * Tx + l < W) by lia.
  apply (Hno _ _ _ By Bx Bb).
  pose proof (mid_coords_bounds _ _ _ _ _ Hf f) as Hm. fold A in Hm. unfold mid_coords in Hm. fold A in Hm.
  assert (Lm : List.length (unravel A (f mod prodZ A)) = List.length C) by (rewrite unravel_length; unfold A, C; rewrite !map_length; auto).
  assert (LCN : List.length N = List.length C) by (unfold N, C; rewrite !map_length; auto).
  unfold num, off, chunk_number, byte_offset, pixel_index, chunks, grid, ds. cbn [map unravel app].
  rewrite !map_app. cbn [map]. fold A C N C0 Ty Tx ny nx.
  rewrite !zip_with_cons, !zip_with_app by auto. cbn [tl zip_with].
  assert (Dy : (i * Ty + k) / Ty = i) by (apply (div_unique' _ _ _ k); lia).
  assert (My : (i * Ty + k) mod Ty = k) by (apply (mod_unique' _ _ i); lia).
  assert (Dx : (j * Tx + l) / Tx = j) by (apply (div_unique' _ _ _ l); lia).
  assert (Mx : (j * Tx + l) mod Tx = l) by (apply (mod_unique' _ _ j); lia).
  rewrite Dy, My, Dx, Mx.
  unfold frame_group, frame_slot, mid_coords in E1, E2. fold A C N C0 in E1, E2.
  split.
  - rewrite ravel_app by (rewrite zip_with_length by auto; lia). rewrite <- E1. cbn [ravel prodZ].
    rewrite (Z.div_mod c (ny * nx)) at 2 by (assert (0 < ny * nx) by (apply Z.mul_pos_pos; lia); lia).
    assert (Ecm : c mod (ny * nx) = i * nx + j).
    { unfold i, j. rewrite <- (mod_mod_mul c ny nx) by lia.
      pose proof (Z.div_mod (c mod (ny * nx)) nx ltac:(lia)). lia. }
    rewrite Ecm. lia.
  - change (C0 :: C ++ [Ty; Tx]) with ((C0 :: C) ++ [Ty; Tx]).
    match goal with |- context [ravel _ (?a :: ?b ++ [k; l])] => change (a :: b ++ [k; l]) with ((a :: b) ++ [k; l]) end.
    rewrite ravel_app by (simpl; rewrite zip_with_length by auto; lia). rewrite <- E2. cbn [ravel prodZ].
    rewrite (Z.div_mod o TT) at 2 by lia. fold r.
    assert (Er : r = k * (Tx * bpp) + s) by (unfold k, s; pose proof (Z.div_mod r (Tx * bpp) ltac:(lia)); lia).
    assert (Es : s = l * bpp + s mod bpp) by (unfold l; pose proof (Z.div_mod s bpp ltac:(lia)); lia).
    rewrite Er. clearbody s k l r. clear - Es. rewrite Es at 2. unfold TT. ring.
Qed.

Lemma addr_hit data f y x b old :
  0 <= f -> 0 <= y < H -> 0 <= x < W -> 0 <= b < bpp ->
  frame_byte bpp d0 mids dy dx data f (num f y x) old (off f y x b) = getb data ((y * W + x) * bpp + b).
Proof.
  intros Hf0 Hy Hx Hb.
  set (F := repeat (@nil Z) (Z.to_nat f)). assert (HF : zlen F = f) by (unfold F, zlen; rewrite repeat_length; lia).
  pose proof (fit_c0 _ _ _ _ _ Hf) as HC0. pose proof (PA_pos _ _ _ _ _ Hf) as HPA. fold A in HPA. fold C0 in HC0.
  assert (HP : 0 < P) by (unfold P; apply Z.mul_pos_pos; lia).
  destruct (addr_read F f y x b Hf0 Hy Hx Hb) as (R1 & R2 & _).
  assert (Hq : 0 <= f / P) by (apply Z.div_pos; lia).
  assert (Hnb : prodZ (map nch mids) * (nch dy * nch dx) = nbuf) by (unfold nbuf, grid; rewrite nch_prod_split; auto).
  assert (X : forall d, frame_byte bpp d0 mids dy dx d f (num f y x) (spec_byte bpp d0 mids dy dx F (f / P) (num f y x) (off f y x b)) (off f y x b)
     = getb d ((y * W + x) * bpp + b)).
  { intros d. pose proof (frame_byte_spec bpp d0 mids dy dx Hf F d (f / P) (num f y x) (off f y x b)) as S.
    rewrite Hnb in S. rewrite HF in S. fold A C0 in S. fold P in S. rewrite S by auto.
    destruct (addr_read (F ++ [d]) f y x b Hf0 Hy Hx Hb) as (_ & _ & ->).
    rewrite app_nth2; unfold F; rewrite repeat_length; [|lia]. rewrite Nat.sub_diag. reflexivity. }
  assert (S0 : spec_byte bpp d0 mids dy dx F (f / P) (num f y x) (off f y x b) = 0).
  { destruct (addr_read F f y x b Hf0 Hy Hx Hb) as (_ & _ & ->). rewrite nth_overflow by (unfold F; rewrite repeat_length; lia). unfold getb. apply nth_overflow. simpl. lia. }
  rewrite S0 in X.
  pose proof (X (repeat 1 (S (Z.to_nat ((y * W + x) * bpp + b))))) as X1.
  specialize (X data). revert X X1. unfold frame_byte.
  match goal with |- context [if ?c then _ else _] => destruct c end; auto.
  intros _ X1. exfalso. revert X1. unfold getb. generalize (Z.to_nat ((y * W + x) * bpp + b)). clear.
  intros n Hn. assert (nth n (repeat 1 (S n)) 0 = 1); [|lia]. clear Hn; induction n; simpl in *; auto.
Qed.
End Addr.

Lemma frame_copied_exactly bpp dt d0 mids dy dx (Hf : fits bpp d0 mids dy dx) (Hb : bytes_of_type dt = Ok bpp) a data :
  let ds := d0 :: mids ++ [dy; dx] in
  let H := d_array dy in let W := d_array dx in
  let grid := map nch (mids ++ [dy; dx]) in
  let chunks := map d_chunk ds in
  let f := a_frames a in
  c_dims (a_cfg a) = ds -> c_dtype (a_cfg a) = dt -> 0 <= f < 2 ^ 32 ->
  zlen (a_bufs a) = prodZ grid -> Forall (fun b => zlen b = prodZ chunks * bpp) (a_bufs a) ->
  zlen data = H * W * bpp ->
  exists bufs,
    write_frame_to_chunks a data = Ok (bufs, H * W * bpp)
    /\ zlen bufs = prodZ grid /\ Forall (fun b => zlen b = prodZ chunks * bpp) bufs
    /\ (forall y x b, 0 <= y < H -> 0 <= x < W -> 0 <= b < bpp ->
          getb (nth (Z.to_nat (chunk_number chunks grid (pixel_index (map d_array mids) f y x))) bufs [])
               (byte_offset chunks bpp (pixel_index (map d_array mids) f y x) b)
          = getb data ((y * W + x) * bpp + b))
    /\ (forall c o, 0 <= c < prodZ grid -> 0 <= o < prodZ chunks * bpp ->
          (forall y x b, 0 <= y < H -> 0 <= x < W -> 0 <= b < bpp ->
             ~ (chunk_number chunks grid (pixel_index (map d_array mids) f y x) = c
                /\ byte_offset chunks bpp (pixel_index (map d_array mids) f y x) b = o)) ->
          getb (nth (Z.to_nat c) bufs []) o = getb (nth (Z.to_nat c) (a_bufs a) []) o).
Proof.
  intros ds H W grid chunks f Hd Ht Hn Hz HB Hdata.
  assert (En : prodZ (map nch mids) * (nch dy * nch dx) = prodZ grid) by (unfold grid; rewrite nch_prod_split; auto).
  destruct (write_frame_to_chunks_exact bpp dt d0 mids dy dx Hf Hb a data Hd Ht Hn) as (bufs & R1 & R2 & R3 & R4); auto.
  { rewrite En; auto. }
  rewrite En in R2, R4. exists bufs. split; [exact R1|]. split; [exact R2|]. split; [exact R3|]. split.
  - intros y x b Hy Hx Hbb.
    destruct (addr_read bpp d0 mids dy dx Hf [] f y x b ltac:(lia) Hy Hx Hbb) as (B1 & B2 & _).
    fold ds grid chunks in B1, B2. rewrite R4 by auto.
    apply (addr_hit bpp d0 mids dy dx Hf); auto; lia.
  - intros c o Hc Ho Hno. rewrite R4 by auto. apply (addr_surj bpp d0 mids dy dx Hf); auto; lia.
Qed.
