(** What the levels of a multiscale pyramid are, independently of how the code makes them. *)
Require Import ZArith List Bool String.
Require Import Verif.Base Verif.Spec Verif.Dim.
Import ListNotations.
Open Scope Z_scope.

(** Dimension [d] at level [k]: channels are never downsampled; an append dimension of unlimited
    extent (0) keeps its chunks, one to a shard; any other has extent ceil (extent / 2^k), chunks no larger
    than that and shards no larger than the number of chunks. *)
Definition at_level (k : nat) (d : dim) : dim :=
  if (Nat.eqb k 0) || (d_type d =? ty_channel) then d
  else if d_array d =? 0 then mkdim (d_name d) (d_type d) 0 (d_chunk d) 1
  else let a := ceil_div (d_array d) (2 ^ Z.of_nat k) in
       let c := Z.min (d_chunk d) a in
       mkdim (d_name d) (d_type d) a c (Z.min (d_shard d) (ceil_div a c)).

(** at level [k] a dimension got shorter than the chunk the user asked for *)
Definition chunk_shrinks (ds : list dim) (k : nat) : Prop :=
  exists d, In d ds /\ d_type d <> ty_channel /\ 0 < d_array d /\ ceil_div (d_array d) (2 ^ Z.of_nat k) < d_chunk d.
(** levels 0 .. N: N is the first level (after 0) where a chunk shrinks *)
Definition last_level (ds : list dim) (N : nat) : Prop :=
  (1 <= N)%nat /\ chunk_shrinks ds N /\ forall k, (1 <= k < N)%nat -> ~ chunk_shrinks ds k.

(** ** 8-bit unsigned images *)
(** [h] is the image [a] of [H] rows and [W] columns at half the resolution: means of 2 x 2 pixels,
    rounded down, the last row and column repeated where the extent is odd *)
Definition halved (W H : Z) (a h : list Z) : Prop :=
  let W' := ceil_div W 2 in let H' := ceil_div H 2 in
  let p y x := getb a (y * W + x) in
  zlen h = W' * H' /\
  forall y x, 0 <= y < H' -> 0 <= x < W' ->
    let y1 := Z.min (2 * y + 1) (H - 1) in
    let x1 := Z.min (2 * x + 1) (W - 1) in
    getb h (y * W' + x) = (p (2 * y) (2 * x) + p (2 * y) x1 + p y1 (2 * x) + p y1 x1) / 4.
(** [c] is the pixelwise mean of [a] and [b], rounded down *)
Definition meaned (a b c : list Z) : Prop :=
  zlen c = zlen a /\ zlen a = zlen b /\ forall i, 0 <= i < zlen c -> getb c i = (getb a i + getb b i) / 2.
(** [G] is the next level of the sequence [F] of frames: frame j is the mean of frames 2j and 2j+1 of
    [F] at half the resolution; a last frame without a partner is dropped *)
Definition next_level (W H : Z) (F G : list (list Z)) : Prop :=
  zlen G = zlen F / 2 /\
  forall j, 0 <= j < zlen G -> exists h0 h1,
    halved W H (nth (Z.to_nat (2 * j)) F []) h0 /\
    halved W H (nth (Z.to_nat (2 * j + 1)) F []) h1 /\
    meaned h0 h1 (nth (Z.to_nat j) G []).
