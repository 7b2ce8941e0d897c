(** Model of VectorizedFileWriter (vectorized.file.writer.cpp), POSIX branch. Not modelled: the Windows branch, opening and closing. *)
Require Import ZArith List Bool.
Require Import Verif.Base Verif.World.
Import ListNotations.
Open Scope Z_scope.

(** static_cast<int> of a size_t (two's complement, C++20) *)
Definition s32 (x : Z) : Z := let y := x mod 2 ^ 32 in if y <? 2 ^ 31 then y else y - 2 ^ 32.

(** What the system does with a call of pwritev: [Some n] = it accepts the first n bytes (at most what was asked for; a short write is
    allowed), [None] = it fails. *)
Definition answer := option Z.

(** pwritev(2): the buffers in order at [off], without changing what is elsewhere. Fails without effect if off < 0 or the number of
    buffers is not in 0 .. IOV_MAX. Result: the file and the return value. *)
Definition iov_max : Z := 1024.
Definition pwritev (file : list Z) (bufs : list (list Z)) (cnt off : Z) (a : answer) : list Z * Z :=
  if (off <? 0) || (cnt <? 0) || (iov_max <? cnt) then (file, -1)
  else match a with
       | None => (file, -1)
       | Some n => let data := List.concat (firstn (Z.to_nat cnt) bufs) in
                   let n := Z.max 0 (Z.min n (zlen data)) in
                   ((if n =? 0 then file else write_at file off (firstn (Z.to_nat n) data)), n)
       end.

(** VectorizedFileWriter::write_vectors (vectorized.file.writer.cpp:108-195), lines 165-193 *)
Definition write_vectors (file : list Z) (bufs : list (list Z)) (offset : Z) (a : answer) : list Z * bool :=
  let total := fold_left (fun t b => t + zlen b) bufs 0 in
  let '(file', written) := pwritev file bufs (s32 (zlen bufs)) (s32 offset) a in
  (file', written =? total).

(** align_to_page_ (vectorized.file.writer.cpp:208-212): (size + page_size_ - 1) & ~(page_size_ - 1) on size_t *)
Definition align_to_page (page size : Z) : Z := Z.land (u64 (size + page - 1)) (u64 (Z.lnot (page - 1))).
(** align_size_ (vectorized.file.writer.cpp:197-206), not Windows *)
Definition align_size (page size : Z) : Z := align_to_page page size.
