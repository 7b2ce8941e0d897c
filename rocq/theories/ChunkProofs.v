(** The content of a whole chunk, ragged edges included. *)
Require Import ZArith List Bool String Lia Zify.
Require Import Verif.Base Verif.Spec Verif.Dim Verif.Radix Verif.Limits Verif.DimProofs Verif.World Verif.Writer Verif.TileProofs Verif.BufProofs.
Import ListNotations.
Open Scope list_scope.
Open Scope Z_scope.

Section Buf.
Variables (bpp : Z) (d0 : dim) (mids : list dim) (dy dx : dim).
Let ds := d0 :: mids ++ [dy; dx].
Hypothesis Hf : fits bpp d0 mids dy dx.
Let H := d_array dy. Let W := d_array dx. Let Ty := d_chunk dy. Let Tx := d_chunk dx.
Let ny := nch dy. Let nx := nch dx.
Let A := map d_array mids. Let C := map d_chunk mids. Let N := map nch mids.
Let C0 := d_chunk d0.
Let nbuf := prodZ N * (ny * nx).
Let B := prodZ (map d_chunk ds) * bpp.
Let TT := Ty * Tx * bpp.

Lemma split3 (l : list Z) n : List.length l = (n + 2)%nat -> exists m a b, l = m ++ [a; b] /\ List.length m = n.
Proof.
  intros Hl. exists (firstn n l). pose proof (skipn_length n l) as X. rewrite Hl in X.
  destruct (skipn n l) as [|a [|b [|c r]]] eqn:Es; cbn in X; try lia. exists a, b. split; [rewrite <- Es; symmetry; apply firstn_skipn|]. apply firstn_length_le. lia.
Qed.

Lemma mul_lt_room a n k r : 0 <= a < n -> 0 <= r < k -> 0 <= a * k + r < n * k.
Proof. intros. nia. Qed.

(** the tile part: pixel (ly, lx) of the tile (cy, cx) *)
Lemma chunk_spec F q cc : 0 <= q -> in_bounds (map nch (mids ++ [dy; dx])) cc ->
  chunk_holds bpp A H W F (map d_chunk ds) (q :: cc) (spec_chunk bpp d0 mids dy dx F q (ravel (map nch (mids ++ [dy; dx])) cc)).
Proof.
  intros Hq Hcc. destruct (buf_pos bpp d0 mids dy dx Hf) as (P1 & P2 & P3 & P4 & P5 & P6 & PB & P7 & P8 & P9 & P10 & _).
  fold Ty Tx ny nx A C N C0 ds in P1, P2, P3, P4, P5, P6, PB, P7, P8, P10. fold nbuf in P7. fold B in PB, P8. fold TT in P2, PB.
  split; [rewrite (spec_chunk_len bpp d0 mids dy dx Hf); reflexivity|].
  intros inner t mm y x b Hin Hb E v.
  pose proof (in_bounds_length _ _ Hcc) as Lc. rewrite map_length, app_length in Lc. cbn [List.length] in Lc.
  destruct (split3 cc (List.length mids) ltac:(lia)) as (cm & cy & cx & -> & Lcm).
  pose proof (in_bounds_length _ _ Hin) as Li. unfold ds in Li. cbn [map List.length] in Li. rewrite map_length, app_length in Li. cbn [List.length] in Li.
  destruct inner as [|i0 inner]; [cbn in Li; lia|]. cbn [List.length] in Li.
  destruct (split3 inner (List.length mids) ltac:(lia)) as (im & iy & ix & -> & Lim).
  assert (LN : List.length N = List.length cm) by (unfold N; rewrite map_length; lia).
  assert (LC : List.length C = List.length im) by (unfold C; rewrite map_length; lia).
  rewrite map_app in Hcc. cbn [map] in Hcc. fold N ny nx in Hcc. apply in_bounds_app in Hcc; [|exact LN]. destruct Hcc as [Bcm Bc]. cbn [in_bounds] in Bc. destruct Bc as (Bcy & Bcx & _).
  unfold ds in Hin. cbn [map in_bounds] in Hin. rewrite map_app in Hin. cbn [map] in Hin. fold C0 C Ty Tx in Hin. destruct Hin as [Bi0 Hin]. apply in_bounds_app in Hin; [|exact LC]. destruct Hin as [Bim Bi]. cbn [in_bounds] in Bi. destruct Bi as (Biy & Bix & _).
  unfold ds in E. cbn [map] in E. rewrite map_app in E. cbn [map] in E. fold C0 C Ty Tx in E. rewrite !zip_with_cons in E.
  rewrite (zip_with_app _ cm [cy; cx] C [Ty; Tx]) in E by lia.
  rewrite (zip_with_app _ (zip_with Z.mul cm C) (zip_with Z.mul [cy; cx] [Ty; Tx]) im [iy; ix]) in E by (rewrite zip_with_length; lia).
  cbn [zip_with] in E. fold (unchunk C cm im) in E.
  assert (Et : t = q * C0 + i0) by (injection E as E0 _; auto).
  assert (E1 : unchunk C cm im = mm /\ y = cy * Ty + iy /\ x = cx * Tx + ix).
  { injection E as _ E. change [cy * Ty + iy; cx * Tx + ix] with ([cy * Ty + iy] ++ [cx * Tx + ix]) in E. change [y; x] with ([y] ++ [x]) in E. rewrite !app_assoc in E.
    apply app_inj_tail in E. destruct E as [E ->]. apply app_inj_tail in E. destruct E as [E ->]. auto. }
  clear E. destruct E1 as (Em & Ey & Ex).
  set (g := ravel N cm) in *. set (K := ravel (C0 :: C) (i0 :: im)) in *.
  set (c := ravel (map nch (mids ++ [dy; dx])) (cm ++ [cy; cx])) in *.
  set (o := ravel (map d_chunk ds) (i0 :: im ++ [iy; ix]) * bpp + b) in *.
  pose proof (ravel_bound _ _ Bcm) as Bg. fold g in Bg.
  assert (BK : 0 <= K < C0 * prodZ C). { assert (X : in_bounds (C0 :: C) (i0 :: im)) by (cbn [in_bounds]; auto). pose proof (ravel_bound _ _ X) as Y. cbn [prodZ fold_right] in Y. exact Y. }
  assert (Ec : c = g * (ny * nx) + (cy * nx + cx)).
  { unfold c. rewrite map_app. cbn [map]. fold N ny nx. rewrite ravel_app by exact LN. fold g. cbn [ravel prodZ fold_right]. ring. }
  assert (Eo : o = K * TT + ((iy * Tx + ix) * bpp + b)).
  { unfold o, ds, K. change (d0 :: mids ++ [dy; dx]) with ((d0 :: mids) ++ [dy; dx]). rewrite map_app. cbn [map]. fold C0 C Ty Tx.
    change (i0 :: im ++ [iy; ix]) with ((i0 :: im) ++ [iy; ix]). rewrite ravel_app by (cbn [List.length]; lia). unfold TT. cbn [ravel prodZ fold_right]. ring. }
  set (r := (iy * Tx + ix) * bpp + b) in *.
  assert (Bs : 0 <= ix * bpp + b < Tx * bpp) by (apply mul_lt_room; auto).
  assert (Bpx : 0 <= iy * Tx + ix < Ty * Tx) by (apply mul_lt_room; auto).
  assert (Br : 0 <= r < TT) by (unfold r, TT; apply mul_lt_room; auto).
  assert (Btl : 0 <= cy * nx + cx < ny * nx) by (apply mul_lt_room; auto).
  assert (Bo : 0 <= o < B) by (rewrite Eo, PB; apply mul_lt_room; auto).
  assert (Bcn : 0 <= c < nbuf) by (rewrite Ec; unfold nbuf; apply mul_lt_room; auto).
  assert (nxp : 0 < nx) by lia.
  assert (Dc1 : c / (ny * nx) = g) by (apply (div_unique' _ _ _ (cy * nx + cx)); lia).
  assert (Dc2 : c mod (ny * nx) = cy * nx + cx) by (apply (mod_unique' _ _ g); lia).
  assert (Dc3 : c mod nx = cx) by (rewrite <- (mod_mod_mul c ny nx) by lia; rewrite Dc2; apply (mod_unique' _ _ cy); lia).
  assert (Dc4 : (c mod (ny * nx)) / nx = cy) by (rewrite Dc2; apply (div_unique' _ _ _ cx); lia).
  assert (Do1 : o / TT = K) by (apply (div_unique' _ _ _ r); lia).
  assert (Do2 : o mod TT = r) by (apply (mod_unique' _ _ K); lia).
  assert (Dr1 : r / (Tx * bpp) = iy) by (apply (div_unique' _ _ _ (ix * bpp + b)); unfold r; lia).
  assert (Dr2 : r mod (Tx * bpp) = ix * bpp + b) by (apply (mod_unique' _ _ iy); unfold r; lia).
  assert (Ds : (ix * bpp + b) / bpp = ix) by (apply (div_unique' _ _ _ b); lia).
  assert (V : v = spec_byte bpp d0 mids dy dx F q c o) by (unfold v; apply (getb_spec_chunk bpp d0 mids dy dx F q c o Bo)).
  clearbody v. subst v. unfold spec_byte. fold ny nx Ty Tx. fold TT. rewrite Dc3, Dc4, Do2, Dr1, Dr2, Ds. fold H W.
  assert (Eown : owner bpp d0 mids dy dx q c o = if in_boundsb A mm then Some (t * prodZ A + ravel A mm) else None).
  { unfold owner. fold ny nx Ty Tx. fold TT. fold C0 C N A. rewrite Do1, Dc1. unfold K. rewrite (unravel_ravel (C0 :: C)) by (cbn [in_bounds]; auto). cbn [hd tl].
    unfold g. rewrite (unravel_ravel N) by auto. rewrite Em, Et. reflexivity. }
  rewrite Eown. split.
  - intros (M & Hy & Hx). rewrite (proj2 (in_boundsb_spec A mm) M). rewrite (proj2 (Z.ltb_lt (cy * Ty + iy) H)) by lia. rewrite (proj2 (Z.ltb_lt (cx * Tx + ix) W)) by lia. cbn [andb].
    unfold appended_byte. f_equal. subst y x. ring.
  - intros Hn. destruct (in_boundsb A mm) eqn:Eb; [|reflexivity]. apply in_boundsb_spec in Eb.
    destruct (cy * Ty + iy <? H) eqn:E1; [|reflexivity]. destruct (cx * Tx + ix <? W) eqn:E2; [|reflexivity]. exfalso. apply Hn. split; [exact Eb|]. lia.
Qed.
End Buf.
