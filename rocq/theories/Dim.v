(** Model of zarr.dimension.cpp, zarr.dimension.hh and the size functions of zarr.common.cpp. *)
Require Import ZArith List Bool String Ascii.
Require Import Verif.Base.
Import ListNotations.
Open Scope Z_scope.

(** ** Enumerations (include/zarr.types.h:45-58, 75-82) as their integer codes *)
Definition dt_uint8 := 0.   Definition dt_uint16 := 1.  Definition dt_uint32 := 2.
Definition dt_uint64 := 3.  Definition dt_int8 := 4.    Definition dt_int16 := 5.
Definition dt_int32 := 6.   Definition dt_int64 := 7.   Definition dt_float32 := 8.
Definition dt_float64 := 9. Definition dt_count := 10.

Definition ty_space := 0. Definition ty_channel := 1. Definition ty_time := 2.
Definition ty_other := 3. Definition ty_count := 4.

(** struct ZarrDimension (zarr.dimension.hh:9-31); the three sizes are uint32_t. *)
Record dim : Type := mkdim {
  d_name : string;
  d_type : Z;
  d_array : Z;
  d_chunk : Z;
  d_shard : Z
}.

Definition dim0 : dim := mkdim "" 0 0 0 0.

(** dims_[i] (zarr.dimension.cpp:19-23).  The default is never reached: every caller
    indexes below ndims(). *)
Definition at_dim (ds : list dim) (i : nat) : dim := nth i ds dim0.

(** ArrayDimensions::ArrayDimensions (zarr.dimension.cpp:5-11) *)
Definition make_dimensions (ds : list dim) : outcome (list dim) :=
  if Nat.ltb 2 (List.length ds) then Ok ds
  else Throw "Array must have at least three dimensions.".

(** final_dim / height_dim / width_dim (zarr.dimension.cpp:25-41) *)
Definition final_dim (ds : list dim) : dim := at_dim ds 0.
Definition height_dim (ds : list dim) : dim := at_dim ds (List.length ds - 2).
Definition width_dim (ds : list dim) : dim := at_dim ds (List.length ds - 1).

(** The dimensions with index 1 .. ndims-3, over which several loops of the code range. *)
Definition mid_dims (ds : list dim) : list dim :=
  firstn (List.length ds - 3) (tl ds).

(** zarr::bytes_of_type (zarr.common.cpp:42-64) *)
Definition bytes_of_type (dt : Z) : outcome Z :=
  if (dt =? dt_int8) || (dt =? dt_uint8) then Ok 1
  else if (dt =? dt_int16) || (dt =? dt_uint16) then Ok 2
  else if (dt =? dt_int32) || (dt =? dt_uint32) || (dt =? dt_float32) then Ok 4
  else if (dt =? dt_int64) || (dt =? dt_uint64) || (dt =? dt_float64) then Ok 8
  else Throw "Invalid data type".

(** zarr::bytes_of_frame (zarr.common.cpp:66-72): size_t * uint32 * uint32 *)
Definition bytes_of_frame (ds : list dim) (dt : Z) : outcome Z :=
  let? bpp := bytes_of_type dt in
  Ok (u64 (u64 (bpp * d_array (height_dim ds)) * d_array (width_dim ds))).

(** zarr::chunks_along_dimension (zarr.common.cpp:74-81): all uint32_t *)
Definition chunks_along_dimension (d : dim) : outcome Z :=
  if 0 <? d_chunk d then Ok (u32 (d_array d + d_chunk d - 1) / d_chunk d)
  else Throw "Invalid chunk size.".

(** zarr::shards_along_dimension (zarr.common.cpp:83-93) *)
Definition shards_along_dimension (d : dim) : outcome Z :=
  if d_shard d =? 0 then Ok 0
  else let? n := chunks_along_dimension d in
       Ok (u32 (n + d_shard d - 1) / d_shard d).

(** C++ integer division / remainder: division by zero is undefined behaviour. *)
Definition odiv (a b : Z) : outcome Z := if b =? 0 then UB else Ok (a / b).
Definition omod (a b : Z) : outcome Z := if b =? 0 then UB else Ok (a mod b).

(** ArrayDimensions::chunk_lattice_index (zarr.dimension.cpp:43-73).
    dim 0: uint32_t divisor, wrapping; other dims: size_t products over dims
    [i, ndims-2), the first factor of div_divisor being the chunk size. *)
Definition chunk_lattice_index (ds : list dim) (frame_id : Z) (i : nat) : outcome Z :=
  if Nat.ltb i (List.length ds - 2) then
    match i with
    | O =>
        let divisor := fold_left (fun acc d => u32 (acc * d_array d))
                                 (mid_dims ds) (d_chunk (final_dim ds)) in
        if divisor =? 0 then Throw "CHECK(divisor)" else Ok (u32 (frame_id / divisor))
    | S _ =>
        let rest := skipn (i - 1) (mid_dims ds) in      (* dims i .. ndims-3 *)
        let md := fold_left (fun acc d => u64 (acc * d_array d)) rest 1 in
        let dd := match rest with
                  | [] => 1
                  | d :: tl => fold_left (fun acc d => u64 (acc * d_array d)) tl (u64 (d_chunk d))
                  end in
        if md =? 0 then Throw "CHECK(mod_divisor)"
        else if dd =? 0 then Throw "CHECK(div_divisor)"
        else Ok (u32 ((frame_id mod md) / dd))
    end
  else Throw "Invalid dimension index".

(** strides[n-1] = 1; strides[i-1] = w (strides[i] * f dims[i]): the backward loops of
    zarr.dimension.cpp:78-83, 180-183, 194-198, 222-225, 243-248. [w] is the wrap of
    the element type of the vector. *)
Fixpoint strides (w : Z -> Z) (f : dim -> Z) (ds : list dim) : list Z :=
  match ds with
  | [] => []
  | _ :: ds' =>
      let r := strides w f ds' in
      match r with
      | [] => 1
      | s :: _ => w (s * f (hd dim0 ds'))
      end :: r
  end.

(** The expression ((a + c - 1) / c) in uint32_t (zarr.dimension.cpp:81-82). *)
Definition nchunks32 (d : dim) : Z := u32 (d_array d + d_chunk d - 1) / d_chunk d.

Definition any_zero_chunk (ds : list dim) : bool := existsb (fun d => d_chunk d =? 0) ds.

(** ArrayDimensions::tile_group_offset (zarr.dimension.cpp:75-93) *)
Definition tile_group_offset (ds : list dim) (frame_id : Z) : outcome Z :=
  if any_zero_chunk (tl ds) then UB
  else
    let st := strides u64 nchunks32 ds in
    let? off :=
       ofold (fun acc i =>
                let? idx := chunk_lattice_index ds frame_id i in
                Ok (u64 (acc + u64 (idx * nth i st 0))))
             (rev (seq 1 (List.length ds - 3))) 0 in
    Ok (u32 off).

(** One iteration of the loop of chunk_internal_offset (zarr.dimension.cpp:106-114). The
    vectors array_strides/chunk_strides are only read at the current index, so the
    model keeps the current entry of each. *)
Definition cio_step (frame_id : Z) (st : Z * Z * Z) (d : dim) : outcome (Z * Z * Z) :=
  let '(astride, cstride, off) := st in
  let? q := odiv frame_id astride in
  let? m := omod q (d_array d) in
  let? k := omod m (d_chunk d) in
  Ok (u64 (astride * d_array d), u64 (cstride * d_chunk d), u64 (off + u64 (k * cstride))).

(** ArrayDimensions::chunk_internal_offset (zarr.dimension.cpp:95-125) *)
Definition chunk_internal_offset (ds : list dim) (dt : Z) (frame_id : Z) : outcome Z :=
  let? bpp := bytes_of_type dt in
  let tile_size := u64 (u64 (bpp * d_chunk (width_dim ds)) * d_chunk (height_dim ds)) in
  let? st := ofold (cio_step frame_id) (rev (mid_dims ds)) (1, 1, 0) in
  let '(astride, cstride, off) := st in
  let? q := odiv frame_id astride in
  let? k := omod q (d_chunk (final_dim ds)) in
  Ok (u64 (u64 (off + u64 (k * cstride)) * tile_size)).

(** ArrayDimensions::number_of_chunks_in_memory (zarr.dimension.cpp:127-136), uint32_t *)
Definition number_of_chunks_in_memory (ds : list dim) : outcome Z :=
  ofold (fun acc d => let? n := chunks_along_dimension d in Ok (u32 (acc * n))) (tl ds) 1.

(** ArrayDimensions::bytes_per_chunk (zarr.dimension.cpp:138-147), size_t *)
Definition bytes_per_chunk (ds : list dim) (dt : Z) : outcome Z :=
  let? bpp := bytes_of_type dt in
  Ok (fold_left (fun acc d => u64 (acc * d_chunk d)) ds bpp).

(** ArrayDimensions::number_of_shards (zarr.dimension.cpp:149-159) *)
Definition number_of_shards (ds : list dim) : outcome Z :=
  let? n := ofold (fun acc d => let? s := shards_along_dimension d in Ok (u64 (acc * s))) (tl ds) 1 in
  Ok (u32 n).

(** ArrayDimensions::chunks_per_shard (zarr.dimension.cpp:161-170) *)
Definition chunks_per_shard (ds : list dim) : Z :=
  u32 (fold_left (fun acc d => u64 (acc * d_shard d)) ds 1).

(** Values of the (total) helper functions once chunk/shard sizes are positive. *)
Definition nchunks_of (d : dim) : Z := match chunks_along_dimension d with Ok n => n | _ => 0 end.
Definition nshards_of (d : dim) : Z := match shards_along_dimension d with Ok n => n | _ => 0 end.

(** chunk_lattice_indices[i] = chunk_index % chunk_strides[i-1] / chunk_strides[i] for
    i >= 1 (zarr.dimension.cpp:188-191, 231-234). *)
Fixpoint lattice_tail (ci : Z) (st : list Z) : outcome (list Z) :=
  match st with
  | [] => Ok []
  | hi :: st' =>
      match st' with
      | [] => Ok []
      | lo :: _ =>
          let? a := omod ci hi in
          let? b := odiv a lo in
          let? r := lattice_tail ci st' in
          Ok (b :: r)
      end
  end.

Fixpoint odivs (l m : list Z) : outcome (list Z) :=
  match l, m with
  | a :: l', b :: m' => let? q := odiv a b in let? r := odivs l' m' in Ok (q :: r)
  | _, _ => Ok []
  end.

Fixpoint omods (l m : list Z) : outcome (list Z) :=
  match l, m with
  | a :: l', b :: m' => let? q := omod a b in let? r := omods l' m' in Ok (q :: r)
  | _, _ => Ok []
  end.

(** sum of products with wrap [w] *)
Fixpoint wdot (w : Z -> Z) (l m : list Z) (acc : Z) : Z :=
  match l, m with
  | a :: l', b :: m' => wdot w l' m' (w (acc + w (a * b)))
  | _, _ => acc
  end.

(** ArrayDimensions::shard_index_for_chunk (zarr.dimension.cpp:172-212).
    chunk_lattice_indices[0] keeps its value-initialised 0; uint32_t strides and sum. *)
Definition shard_index_for_chunk (ds : list dim) (ci : Z) : outcome Z :=
  let? _ := omap chunks_along_dimension (tl ds) in
  let? _ := omap shards_along_dimension (tl ds) in
  let cst := strides u64 nchunks_of ds in
  let? rest := lattice_tail ci cst in
  let lattice := 0 :: map u32 rest in
  let sst := strides u32 nshards_of ds in
  let? sl := odivs lattice (map d_shard ds) in
  Ok (wdot u32 sl sst 0).

(** ArrayDimensions::shard_internal_index (zarr.dimension.cpp:214-257) *)
Definition shard_internal_index (ds : list dim) (ci : Z) : outcome Z :=
  let? _ := omap chunks_along_dimension (tl ds) in
  let cst := strides u64 nchunks_of ds in
  let? rest := lattice_tail ci cst in
  let? h := odiv ci (hd 0 cst) in
  let lattice := h :: rest in
  let ist := strides u64 d_shard ds in
  let? _ := odivs lattice (map d_shard ds) in
  let? im := omods lattice (map d_shard ds) in
  Ok (u32 (wdot u64 im ist 0)).
