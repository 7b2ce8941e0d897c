(** Independent specification: row-major indexing, the Zarr v2 reader, the Zarr v3
    sharded reader, and the pixel bytes a user appended.  This file mentions no
    definition of the model of acquire-zarr. *)
Require Import ZArith List Bool String.
Require Import Verif.Base.
Import ListNotations.
Open Scope Z_scope.

(** ** Row-major (C order) indexing *)

Fixpoint prodZ (l : list Z) : Z :=
  match l with [] => 1 | d :: l' => d * prodZ l' end.

Fixpoint sumZ (l : list Z) : Z :=
  match l with [] => 0 | d :: l' => d + sumZ l' end.

(** Position of [idx] in an array of shape [shape], last dimension fastest. *)
Fixpoint ravel (shape idx : list Z) : Z :=
  match shape, idx with
  | _ :: sh, i :: ix => i * prodZ sh + ravel sh ix
  | _, _ => 0
  end.

(** The coordinates at position [p] (leading coordinate unbounded). *)
Fixpoint unravel (shape : list Z) (p : Z) : list Z :=
  match shape with
  | [] => []
  | _ :: sh => p / prodZ sh :: unravel sh (p mod prodZ sh)
  end.

Fixpoint in_bounds (shape idx : list Z) : Prop :=
  match shape, idx with
  | [], [] => True
  | d :: sh, i :: ix => 0 <= i < d /\ in_bounds sh ix
  | _, _ => False
  end.

Fixpoint zip_with {A B C} (f : A -> B -> C) (l : list A) (m : list B) : list C :=
  match l, m with
  | a :: l', b :: m' => f a b :: zip_with f l' m'
  | _, _ => []
  end.

Definition ceil_div (a b : Z) : Z := (a + b - 1) / b.

(** ** Paths *)

(** "root/c0/c1/.../cn" *)
Fixpoint join_path (root : string) (comps : list string) : string :=
  match comps with
  | [] => root
  | c :: cs => join_path (root ++ "/" ++ c) cs
  end.

Definition path_of_coords (root : string) (idx : list Z) : string :=
  join_path root (map dec idx).

(** ** What the user appended *)

(** Byte [b] (0 <= b < bpp) of pixel [t :: mids ++ [y; x]] of an array whose
    non-append extents are [mids ++ [H; W]], when [frames] were appended in order.
    Pixels of frames that were never appended read as the fill value 0. *)
Definition appended_byte (bpp : Z) (amids : list Z) (W : Z) (frames : list (list Z))
           (t : Z) (mids : list Z) (y x b : Z) : Z :=
  let f := t * prodZ amids + ravel amids mids in
  getb (nth (Z.to_nat f) frames []) ((y * W + x) * bpp + b).

(** ** Where the Zarr layout puts a pixel *)

(** Index of pixel (y, x) of frame [f] in an array with middle extents [amids]
    (the append extent is unbounded). *)
Definition pixel_index (amids : list Z) (f y x : Z) : list Z :=
  unravel (0 :: amids) f ++ [y; x].

(** Row-major number of the chunk that holds [idx], in the grid of the non-append dimensions. *)
Definition chunk_number (chunks grid idx : list Z) : Z := ravel grid (tl (zip_with Z.div idx chunks)).

(** Offset of byte [b] of element [idx] inside its chunk. *)
Definition byte_offset (chunks : list Z) (bpp : Z) (idx : list Z) (b : Z) : Z :=
  ravel chunks (zip_with Z.modulo idx chunks) * bpp + b.

(** ** Zarr v2 reader ("dimension_separator": "/", order "C", fill_value 0) *)

(** [store k] is the decoded content of key [k]; the byte [b] of pixel [idx]. *)
Definition read_v2 (store : string -> option (list Z)) (decode : list Z -> list Z)
           (array_root : string) (chunks : list Z) (bpp : Z) (idx : list Z) (b : Z) : Z :=
  let cidx := zip_with Z.div idx chunks in
  let inner := zip_with Z.modulo idx chunks in
  match store (path_of_coords array_root cidx) with
  | None => 0
  | Some raw => getb (decode raw) (ravel chunks inner * bpp + b)
  end.

(** ** Zarr v3 reader with the sharding storage transformer 1.0 *)

Definition empty_entry : Z := 2 ^ 64 - 1.

(** 16-byte entry [i] of the index of [n] entries at the end of the shard. *)
Definition shard_entry (file : list Z) (n i : Z) : Z * Z :=
  let base := zlen file - 16 * n in
  (le_value (slice file (base + 16 * i) 8),
   le_value (slice file (base + 16 * i + 8) 8)).

(** The bytes of inner chunk number [i] of a shard of [n] chunks, [None] if absent. *)
Definition shard_chunk (file : list Z) (n i : Z) : option (list Z) :=
  let '(off, len) := shard_entry file n i in
  if (off =? empty_entry) && (len =? empty_entry) then None
  else Some (slice file off len).

Definition shard_key (array_root : string) (sidx : list Z) : string :=
  match sidx with
  | [] => array_root
  | s0 :: rest => path_of_coords (array_root ++ "/c" ++ dec s0) rest
  end.

Definition read_v3 (store : string -> option (list Z)) (decode : list Z -> list Z)
           (array_root : string) (chunks shards : list Z) (bpp : Z) (idx : list Z) (b : Z) : Z :=
  let cidx := zip_with Z.div idx chunks in
  let inner := zip_with Z.modulo idx chunks in
  let sidx := zip_with Z.div cidx shards in
  let slot := zip_with Z.modulo cidx shards in
  match store (shard_key array_root sidx) with
  | None => 0
  | Some file =>
      match shard_chunk file (prodZ shards) (ravel shards slot) with
      | None => 0
      | Some raw => getb (decode raw) (ravel chunks inner * bpp + b)
      end
  end.

(** ** A well-formed shard index: [n] entries in the last 16 * n bytes of the file, each empty or the
    place of a chunk in front of the index, and the places of different chunks do not overlap. *)
Definition entry_empty (file : list Z) (n i : Z) : Prop := shard_entry file n i = (empty_entry, empty_entry).
Definition entry_inside (file : list Z) (n i : Z) : Prop :=
  let '(off, len) := shard_entry file n i in 0 <= off /\ 0 < len /\ off + len <= zlen file - 16 * n.
Definition entries_apart (file : list Z) (n i j : Z) : Prop :=
  let '(off, len) := shard_entry file n i in
  let '(off', len') := shard_entry file n j in
  off + len <= off' \/ off' + len' <= off.
Definition index_ok (file : list Z) (n : Z) : Prop :=
  16 * n <= zlen file /\
  (forall i, 0 <= i < n -> entry_empty file n i \/ entry_inside file n i) /\
  (forall i j, 0 <= i < n -> 0 <= j < n -> i <> j -> ~ entry_empty file n i -> ~ entry_empty file n j -> entries_apart file n i j).

(** ** The whole of one chunk: [content] is the decoded chunk with coordinates [cidx] of the array that holds [frames]:
    every byte inside the array is the appended one (0 if no such frame was appended), every byte of
    an element beyond the edge of the array is 0. *)
Definition chunk_holds (bpp : Z) (amids : list Z) (H W : Z) (frames : list (list Z)) (chunks cidx content : list Z) : Prop :=
  zlen content = prodZ chunks * bpp /\
  forall inner t mm y x b,
    in_bounds chunks inner -> 0 <= b < bpp ->
    zip_with Z.add (zip_with Z.mul cidx chunks) inner = t :: mm ++ [y; x] ->
    let v := getb content (ravel chunks inner * bpp + b) in
    (in_bounds amids mm /\ y < H /\ x < W -> v = appended_byte bpp amids W frames t mm y x b) /\
    (~ (in_bounds amids mm /\ y < H /\ x < W) -> v = 0).
