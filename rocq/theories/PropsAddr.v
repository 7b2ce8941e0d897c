(** C08 (frame-to-chunk addressing), C10 (chunks over shards) and the positive part of
    C44 (integer widths).  Dimension lists are written d0 :: mids ++ [dy; dx]: every list
    of at least three dimensions has this form. *)
Require Import ZArith List Bool String Lia.
Require Import Verif.Base Verif.Spec Verif.Dim Verif.Limits Verif.World Verif.Writer.
Require Import Verif.Radix Verif.DimProofs Verif.ShardProofs Verif.TileProofs Verif.BufProofs Verif.AddrProofs Verif.ShardGrid Verif.Examples.
Import ListNotations.
Open Scope list_scope.
Open Scope Z_scope.

(** Every byte of every pixel of frame [f] has a location inside the chunk buffers. *)
Theorem C08_location_in_range : forall bpp d0 mids dy dx f y x b,
  fits bpp d0 mids dy dx ->
  0 <= f -> 0 <= y < d_array dy -> 0 <= x < d_array dx -> 0 <= b < bpp ->
  let ds := d0 :: mids ++ [dy; dx] in
  let grid := map (fun d => ceil_div (d_array d) (d_chunk d)) (mids ++ [dy; dx]) in
  let chunks := map d_chunk ds in
  let idx := pixel_index (map d_array mids) f y x in
  0 <= chunk_number chunks grid idx < prodZ grid /\
  0 <= byte_offset chunks bpp idx b < prodZ chunks * bpp.
Proof.
  intros bpp d0 mids dy dx f y x b Hf H0 Hy Hx Hb.
  exact (let R := addr_read bpp d0 mids dy dx Hf [] f y x b H0 Hy Hx Hb in conj (proj1 R) (proj1 (proj2 R))).
Qed.

(** Two bytes received between two flushes never share a location. *)
Theorem C08_location_injective : forall bpp d0 mids dy dx f f' y x y' x' b b',
  fits bpp d0 mids dy dx ->
  let ds := d0 :: mids ++ [dy; dx] in
  let amids := map d_array mids in
  let grid := map (fun d => ceil_div (d_array d) (d_chunk d)) (mids ++ [dy; dx]) in
  let chunks := map d_chunk ds in
  let period := d_chunk d0 * prodZ amids in
  0 <= f -> 0 <= f' -> f / period = f' / period ->
  0 <= y < d_array dy -> 0 <= x < d_array dx -> 0 <= b < bpp ->
  0 <= y' < d_array dy -> 0 <= x' < d_array dx -> 0 <= b' < bpp ->
  chunk_number chunks grid (pixel_index amids f y x) = chunk_number chunks grid (pixel_index amids f' y' x') ->
  byte_offset chunks bpp (pixel_index amids f y x) b = byte_offset chunks bpp (pixel_index amids f' y' x') b' ->
  f = f' /\ y = y' /\ x = x' /\ b = b'.
Proof.
  intros bpp d0 mids dy dx f f' y x y' x' b b' Hf. exact (addr_inj bpp d0 mids dy dx Hf f f' y x y' x' b b').
Qed.

(** Copying frame number [a_frames a] into the chunk buffers puts every byte of the frame at its
    Zarr location and changes no other byte. *)
Theorem C08_frame_copied_exactly : forall bpp dt d0 mids dy dx a data,
  fits bpp d0 mids dy dx -> bytes_of_type dt = Ok bpp ->
  let ds := d0 :: mids ++ [dy; dx] in
  let H := d_array dy in let W := d_array dx in
  let grid := map (fun d => ceil_div (d_array d) (d_chunk d)) (mids ++ [dy; dx]) in
  let chunks := map d_chunk ds in
  let f := a_frames a in
  c_dims (a_cfg a) = ds -> c_dtype (a_cfg a) = dt -> 0 <= f < 2 ^ 32 ->
  zlen (a_bufs a) = prodZ grid -> Forall (fun b => zlen b = prodZ chunks * bpp) (a_bufs a) ->
  zlen data = H * W * bpp ->
  exists bufs,
    write_frame_to_chunks a data = Ok (bufs, H * W * bpp)
    /\ zlen bufs = prodZ grid /\ Forall (fun b => zlen b = prodZ chunks * bpp) bufs
    /\ (forall y x b, 0 <= y < H -> 0 <= x < W -> 0 <= b < bpp ->
          getb (nth (Z.to_nat (chunk_number chunks grid (pixel_index (map d_array mids) f y x))) bufs [])
               (byte_offset chunks bpp (pixel_index (map d_array mids) f y x) b)
          = getb data ((y * W + x) * bpp + b))
    /\ (forall c o, 0 <= c < prodZ grid -> 0 <= o < prodZ chunks * bpp ->
          (forall y x b, 0 <= y < H -> 0 <= x < W -> 0 <= b < bpp ->
             ~ (chunk_number chunks grid (pixel_index (map d_array mids) f y x) = c
                /\ byte_offset chunks bpp (pixel_index (map d_array mids) f y x) b = o)) ->
          getb (nth (Z.to_nat c) bufs []) o = getb (nth (Z.to_nat c) (a_bufs a) []) o).
Proof.
  intros bpp dt d0 mids dy dx a data Hf Hb ds H W grid chunks f Hd Ht Hn Hz HB Hdata.
  exact (frame_copied_exactly bpp dt d0 mids dy dx Hf Hb a data Hd Ht Hn Hz HB Hdata).
Qed.

Example C08_nonvacuous :
  fits 2 ex_d0 ex_mids ex_dy ex_dx /\ bytes_of_type dt_uint16 = Ok 2 /\
  chunk_number (map d_chunk ex_dims) [2; 3; 3] (pixel_index [3] 8 4 6) = 17 /\
  byte_offset (map d_chunk ex_dims) 2 (pixel_index [3] 8 4 6) 1 = 1.
Proof. split; [exact ex_fits|]. repeat split. Qed.

(** *** C10 *)

(** The code's shard number and slot are the row-major numbers of (coordinate div shard
    size) and (coordinate mod shard size); the append coordinate inside a flush is 0. *)
Theorem C10_shard_coordinates : forall bpp d0 mids dy dx c,
  fits bpp d0 mids dy dx -> fits_shards d0 mids dy dx ->
  let inner := mids ++ [dy; dx] in
  let grid := map (fun d => ceil_div (d_array d) (d_chunk d)) inner in
  let shard_grid := map (fun d => ceil_div (ceil_div (d_array d) (d_chunk d)) (d_shard d)) inner in
  let coords := unravel grid c in
  0 <= c < prodZ grid ->
  shard_index_for_chunk (d0 :: inner) c = Ok (ravel shard_grid (zip_with Z.div coords (map d_shard inner))) /\
  shard_internal_index (d0 :: inner) c
    = Ok (ravel (map d_shard (d0 :: inner)) (0 :: zip_with Z.modulo coords (map d_shard inner))).
Proof.
  intros bpp d0 mids dy dx c Hf Hs inner grid sg coords Hc.
  exact (conj (shard_index_exact bpp d0 mids dy dx Hf Hs c Hc) (shard_internal_exact bpp d0 mids dy dx Hf Hs c Hc)).
Qed.

(** The code's assignment: a shard below the number of shards, a slot below the number of chunks per shard. *)
Theorem C10_in_range : forall bpp d0 mids dy dx c,
  fits bpp d0 mids dy dx -> fits_shards d0 mids dy dx ->
  let ds := d0 :: mids ++ [dy; dx] in
  let nchunks := prodZ (map (fun d => ceil_div (d_array d) (d_chunk d)) (mids ++ [dy; dx])) in
  0 <= c < nchunks ->
  exists s i n, shard_index_for_chunk ds c = Ok s /\ shard_internal_index ds c = Ok i /\
    number_of_shards ds = Ok n /\ 0 <= s < n /\ 0 <= i < chunks_per_shard ds.
Proof. exact shard_in_range. Qed.

Theorem C10_no_shared_slot : forall bpp d0 mids dy dx c c',
  fits bpp d0 mids dy dx -> fits_shards d0 mids dy dx ->
  let ds := d0 :: mids ++ [dy; dx] in
  let nchunks := prodZ (map (fun d => ceil_div (d_array d) (d_chunk d)) (mids ++ [dy; dx])) in
  0 <= c < nchunks -> 0 <= c' < nchunks ->
  shard_index_for_chunk ds c = shard_index_for_chunk ds c' ->
  shard_internal_index ds c = shard_internal_index ds c' -> c = c'.
Proof. exact shard_no_shared_slot. Qed.

Theorem C10_every_shard_used : forall bpp d0 mids dy dx n s,
  fits bpp d0 mids dy dx -> fits_shards d0 mids dy dx ->
  let ds := d0 :: mids ++ [dy; dx] in
  let nchunks := prodZ (map (fun d => ceil_div (d_array d) (d_chunk d)) (mids ++ [dy; dx])) in
  number_of_shards ds = Ok n -> 0 <= s < n ->
  exists c, 0 <= c < nchunks /\ shard_index_for_chunk ds c = Ok s.
Proof. exact shard_every_used. Qed.

Example C10_nonvacuous :
  fits 2 ex_d0 ex_mids ex_dy ex_dx /\ fits_shards ex_d0 ex_mids ex_dy ex_dx /\
  number_of_shards ex_dims = Ok 8 /\ chunks_per_shard ex_dims = 4 /\
  shard_index_for_chunk ex_dims 14 = Ok 5 /\ shard_internal_index ex_dims 14 = Ok 2.
Proof. split; [exact ex_fits|]. split; [exact ex_fits_shards|]. repeat split. Qed.

Print Assumptions C08_location_in_range.
Print Assumptions C08_location_injective.
Print Assumptions C08_frame_copied_exactly.
Print Assumptions C10_shard_coordinates.
Print Assumptions C10_in_range.
Print Assumptions C10_no_shared_slot.
Print Assumptions C10_every_shard_used.
