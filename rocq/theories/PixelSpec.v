(** What the code stores at the levels of a pyramid, for every data type (C28). *)
Require Import ZArith List Bool String.
Require Import Verif.Base Verif.Spec Verif.Dim.
Import ListNotations.
Open Scope Z_scope.

(** The IEEE 754 number with the given bits ([eb] exponent bits, [m] mantissa bits) is n / 8, n >= 0: zero, or sign 0, a normal exponent [e], and
    (2^m + f) * 2^(e - bias - m) = n / 8. *)
Definition float_is (eb m bits n : Z) : Prop :=
  let f := bits mod 2 ^ m in
  let e := bits / 2 ^ m in
  let bias := 2 ^ (eb - 1) - 1 in
  (bits = 0 /\ n = 0) \/ (0 < e < 2 ^ eb - 1 /\ (2 ^ m + f) * 2 ^ e * 8 = n * 2 ^ (bias + m)).
(** the little-endian pixel has the value n / 8 (binary32, binary64, or an integer that is not negative) *)
Definition pixel_is (dt : Z) (bytes : list Z) (n : Z) : Prop :=
  if dt =? dt_float32 then float_is 8 23 (le_value bytes) n
  else if dt =? dt_float64 then float_is 11 52 (le_value bytes) n
  else n = 8 * le_value bytes.

(** [four W H f y x]: the sum of four BYTES of the frame [f], as if its rows had [W] bytes; for types of one byte these are four pixels *)
Definition four (W H : Z) (f : list Z) (y x : Z) : Z :=
  let p y x := getb f (y * W + x) in
  let y1 := Z.min (2 * y + 1) (H - 1) in
  let x1 := Z.min (2 * x + 1) (W - 1) in
  p (2 * y) (2 * x) + p (2 * y) x1 + p y1 (2 * x) + p y1 x1.
(** the value of a pixel of the next level, in eighths *)
Definition mixed (dt s0 s1 : Z) : Z := if (dt =? dt_float32) || (dt =? dt_float64) then s0 + s1 else 8 * ((s0 / 4 + s1 / 4) / 2).

(** frame j of the next level is made of frames 2j and 2j + 1 *)
Definition next_any (dt bpp W H : Z) (F G : list (list Z)) : Prop :=
  let W' := ceil_div W 2 in let H' := ceil_div H 2 in
  zlen G = zlen F / 2 /\
  forall j, 0 <= j < zlen G ->
    zlen (nth (Z.to_nat j) G []) = H' * W' * bpp /\
    forall y x, 0 <= y < H' -> 0 <= x < W' ->
      pixel_is dt (slice (nth (Z.to_nat j) G []) ((y * W' + x) * bpp) bpp)
        (mixed dt (four W H (nth (Z.to_nat (2 * j)) F []) y x) (four W H (nth (Z.to_nat (2 * j + 1)) F []) y x)).
