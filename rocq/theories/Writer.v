(** Model of array.writer.cpp, zarrv2.array.writer.cpp and zarrv3.array.writer.cpp. *)
Require Import ZArith List Bool String Ascii.
Require Import Verif.Base Verif.Dim Verif.Json Verif.World.
Import ListNotations.
Open Scope string_scope.
Open Scope Z_scope.

(** struct ArrayWriterConfig (array.writer.hh:15-23) *)
Record config : Type := mkconfig {
  c_dims : list dim;
  c_dtype : Z;
  c_level : Z;
  c_bucket : option string;
  c_root : string;                  (* store_path *)
  c_comp : option blosc
}.

(** class ArrayWriter (array.writer.hh:58-79) and the shard state of ZarrV3ArrayWriter
    (zarrv3.array.writer.hh) *)
Record writer : Type := mkwriter {
  a_cfg : config;
  a_v3 : bool;
  a_bufs : list (list Z);           (* chunk_buffers_ *)
  a_toflush : Z;                    (* uint64_t bytes_to_flush_ *)
  a_frames : Z;                     (* uint32_t frames_written_ *)
  a_append : Z;                     (* uint32_t append_chunk_index_ *)
  a_final : bool;                   (* is_finalizing_ *)
  a_sinks : list (option sink);     (* data_sinks_ *)
  a_meta : option sink;             (* metadata_sink_ *)
  a_tables : list (list Z);         (* shard_tables_ *)
  a_offsets : list Z                (* shard_file_offsets_ *)
}.

Definition set_bufs (a : writer) (b : list (list Z)) : writer :=
  mkwriter (a_cfg a) (a_v3 a) b (a_toflush a) (a_frames a) (a_append a) (a_final a) (a_sinks a) (a_meta a) (a_tables a) (a_offsets a).
Definition set_toflush (a : writer) (n : Z) : writer :=
  mkwriter (a_cfg a) (a_v3 a) (a_bufs a) n (a_frames a) (a_append a) (a_final a) (a_sinks a) (a_meta a) (a_tables a) (a_offsets a).
Definition set_frames (a : writer) (n : Z) : writer :=
  mkwriter (a_cfg a) (a_v3 a) (a_bufs a) (a_toflush a) n (a_append a) (a_final a) (a_sinks a) (a_meta a) (a_tables a) (a_offsets a).
Definition set_append (a : writer) (n : Z) : writer :=
  mkwriter (a_cfg a) (a_v3 a) (a_bufs a) (a_toflush a) (a_frames a) n (a_final a) (a_sinks a) (a_meta a) (a_tables a) (a_offsets a).
Definition set_final (a : writer) (b : bool) : writer :=
  mkwriter (a_cfg a) (a_v3 a) (a_bufs a) (a_toflush a) (a_frames a) (a_append a) b (a_sinks a) (a_meta a) (a_tables a) (a_offsets a).
Definition set_sinks (a : writer) (s : list (option sink)) : writer :=
  mkwriter (a_cfg a) (a_v3 a) (a_bufs a) (a_toflush a) (a_frames a) (a_append a) (a_final a) s (a_meta a) (a_tables a) (a_offsets a).
Definition set_meta (a : writer) (s : option sink) : writer :=
  mkwriter (a_cfg a) (a_v3 a) (a_bufs a) (a_toflush a) (a_frames a) (a_append a) (a_final a) (a_sinks a) s (a_tables a) (a_offsets a).
Definition set_tables (a : writer) (t : list (list Z)) : writer :=
  mkwriter (a_cfg a) (a_v3 a) (a_bufs a) (a_toflush a) (a_frames a) (a_append a) (a_final a) (a_sinks a) (a_meta a) t (a_offsets a).
Definition set_offsets (a : writer) (o : list Z) : writer :=
  mkwriter (a_cfg a) (a_v3 a) (a_bufs a) (a_toflush a) (a_frames a) (a_append a) (a_final a) (a_sinks a) (a_meta a) (a_tables a) o.

(** ** downsample (array.writer.cpp:16-76) *)

(** one dimension (array.writer.cpp:22-51) *)
Definition downsample_dim (d : dim) : outcome dim :=
  if d_type d =? ty_channel then Ok d
  else
    let a := u32 (d_array d + d_array d mod 2) / 2 in
    let c := if d_array d =? 0 then d_chunk d else Z.min (d_chunk d) a in
    if c =? 0 then Throw "CHECK(chunk_size_px)"
    else
      let n := u32 (a + c - 1) / c in
      let s := if d_array d =? 0 then 1 else Z.min n (d_shard d) in
      Ok (mkdim (d_name d) (d_type d) a c s).

(** returns the new configuration and whether to go on *)
Definition downsample (c : config) : outcome (config * bool) :=
  let? ds := omap downsample_dim (c_dims c) in
  let? ds := make_dimensions ds in
  let c' := mkconfig ds (c_dtype c) (c_level c + 1) (c_bucket c) (c_root c) (c_comp c) in
  Ok (c', negb (existsb (fun p => d_chunk (snd p) <? d_chunk (fst p)) (combine (c_dims c) ds))).

(** ** Construction *)

(** std::numeric_limits<uint64_t>::max() *)
Definition max64 : Z := 2 ^ 64 - 1.

(** ArrayWriter::ArrayWriter (array.writer.cpp:85-97), ZarrV2ArrayWriter (zarrv2.array.writer.cpp:60-73)
    and ZarrV3ArrayWriter (zarrv3.array.writer.cpp:48-72) *)
Definition make_writer (v3 : bool) (c : config) : outcome writer :=
  if v3 then
    let? n := number_of_shards (c_dims c) in
    let cps := chunks_per_shard (c_dims c) in
    Ok (mkwriter c true [] 0 0 0 false [] None
                 (zrep (zrep max64 (u32 (2 * cps))) n) (zrep 0 n))
  else Ok (mkwriter c false [] 0 0 0 false [] None [] []).

(** ** Monad over a writer and the world *)
Definition AW := (writer * world)%type.
Definition onWd {A} (m : M world A) : M AW A :=
  fun aw => let '(w', r) := m (snd aw) in ((fst aw, w'), r).
Definition getA : M AW writer := fun aw => (aw, Ok (fst aw)).
Definition modA (f : writer -> writer) : M AW unit := fun aw => ((f (fst aw), snd aw), Ok tt).

(** run on data_sinks_.at(i); a null sink is undefined behaviour *)
Definition on_sink {A} (i : nat) (m : M KW A) : M AW A :=
  fun '(a, w) =>
    match nth i (a_sinks a) None with
    | Some s => let '((s', w'), r) := m (s, w) in
                ((set_sinks a (upd (a_sinks a) i (Some s')), w'), r)
    | None => ((a, w), UB)
    end.
Definition on_slot {A} (i : nat) (m : M (option sink * world) A) : M AW A :=
  fun '(a, w) =>
    let '((s', w'), r) := m (nth i (a_sinks a) None, w) in
    ((set_sinks a (upd (a_sinks a) i s'), w'), r).
Definition on_meta {A} (m : M KW A) : M AW A :=
  fun '(a, w) =>
    match a_meta a with
    | Some s => let '((s', w'), r) := m (s, w) in ((set_meta a (Some s'), w'), r)
    | None => ((a, w), UB)
    end.
Definition on_meta_slot {A} (m : M (option sink * world) A) : M AW A :=
  fun '(a, w) =>
    let '((s', w'), r) := m (a_meta a, w) in ((set_meta a s', w'), r).

(** ** Chunk buffers *)

(** ArrayWriter::make_buffers_ (array.writer.cpp:229-243): every buffer resized and filled with 0.
    noexcept: an exception would end the process, modelled as UB. *)
Definition make_buffers (a : writer) : outcome writer :=
  match number_of_chunks_in_memory (c_dims (a_cfg a)), bytes_per_chunk (c_dims (a_cfg a)) (c_dtype (a_cfg a)) with
  | Ok n, Ok nbytes => Ok (set_bufs a (zrep (zrep 0 nbytes) n))
  | _, _ => UB
  end.

(** a loop that may stop early with `return` *)
Fixpoint floop {A S} (f : S -> A -> outcome (S * bool)) (l : list A) (s : S) : outcome (S * bool) :=
  match l with
  | [] => Ok (s, false)
  | a :: l' =>
      let? r := f s a in
      let '(s', stop) := r in
      if stop then Ok (s', true) else floop f l' s'
  end.

(** `for (auto i = 0; i < n; ++i)` with an int counter and an unsigned bound *)
Definition int_range (n : Z) : outcome (list Z) := if n <? 2 ^ 31 then Ok (zseq n) else UB.

(** copy of one tile row (array.writer.cpp:289-319); state = (chunk buffer, bytes written). Copying from or
    to a place outside the buffers is undefined behaviour; an iterator past the end of the chunk (after a
    failed flush the buffer can be shorter than a chunk) is only compared with the end: not counted as such. *)
Definition copy_row (data : list Z) (bpp frame_rows frame_cols tile_rows tile_cols : Z)
           (chunk_offset i j : Z) (st : list Z * Z) (k : Z) : outcome ((list Z * Z) * bool) :=
  let '(chunk, written) := st in
  let bytes_per_row := u64 (tile_cols * bpp) in
  let pos := chunk_offset + k * bytes_per_row in           (* chunk_it - chunk.begin() *)
  let frame_row := u32 (u32 (i * tile_rows) + k) in
  if frame_row <? frame_rows then
    let frame_col := u32 (j * tile_cols) in
    let region_width := u32 (Z.min (u32 (frame_col + tile_cols)) frame_cols - frame_col) in
    let region_start := s64 (u64 (bpp * u32 (u32 (frame_row * frame_cols) + frame_col))) in
    let nbytes := s64 (u64 (region_width * bpp)) in
    let region_stop := region_start + nbytes in
    if zlen data <? u64 region_stop then Ok (st, true)
    else if zlen chunk - pos <? nbytes then Ok (st, true)
    else if (pos <? 0) || (region_start <? 0) || (nbytes <? 0) then UB
    else Ok ((splice chunk pos (slice data region_start nbytes), u64 (written + nbytes)), false)
  else Ok (st, false).

(** ArrayWriter::write_frame_to_chunks_ (array.writer.cpp:245-324); returns buffers and bytes written *)
Definition write_frame_to_chunks (a : writer) (data : list Z) : outcome (list (list Z) * Z) :=
  let ds := c_dims (a_cfg a) in
  let? bpp := bytes_of_type (c_dtype (a_cfg a)) in
  let frame_cols := d_array (width_dim ds) in
  let tile_cols := d_chunk (width_dim ds) in
  let frame_rows := d_array (height_dim ds) in
  let tile_rows := d_chunk (height_dim ds) in
  if (tile_cols =? 0) || (tile_rows =? 0) then Ok (a_bufs a, 0)
  else
    let n_tiles_x := u32 (frame_cols + tile_cols - 1) / tile_cols in
    let n_tiles_y := u32 (frame_rows + tile_rows - 1) / tile_rows in
    let? group_offset := tile_group_offset ds (a_frames a) in
    let? coff := chunk_internal_offset ds (c_dtype (a_cfg a)) (a_frames a) in
    let chunk_offset := s64 coff in
    let? is := int_range n_tiles_y in
    let? js := int_range n_tiles_x in
    let? ks := int_range tile_rows in
    let? r :=
      floop (fun st i =>
        floop (fun st j =>
          let '(bufs, written) := st in
          let c := Z.to_nat (u32 (u32 (group_offset + u32 (i * n_tiles_x)) + j)) in
          match nth_error bufs c with
          | None => UB                                   (* chunk_buffers_[c] out of range *)
          | Some chunk =>
              let? r := floop (copy_row data bpp frame_rows frame_cols tile_rows tile_cols chunk_offset i j)
                              ks (chunk, written) in
              let '((chunk', written'), stop) := r in
              Ok ((upd bufs c chunk', written'), stop)
          end) js st) is (a_bufs a, 0) in
    Ok (fst r).

(** ArrayWriter::should_flush_ (array.writer.cpp:326-337), size_t *)
Definition frames_before_flush (ds : list dim) (first : Z) : Z :=
  fold_left (fun acc d => u64 (acc * d_array d)) (mid_dims ds) first.
Definition should_flush (a : writer) : outcome bool :=
  let n := frames_before_flush (c_dims (a_cfg a)) (d_chunk (final_dim (c_dims (a_cfg a)))) in
  if 0 <? n then Ok (a_frames a mod n =? 0) else Throw "CHECK(frames_before_flush > 0)".

(** ZarrV2ArrayWriter::should_rollover_ (zarrv2.array.writer.cpp:179-183) and
    ZarrV3ArrayWriter::should_rollover_ (zarrv3.array.writer.cpp:241-254): the first product is uint32_t *)
Definition should_rollover (a : writer) : outcome bool :=
  if a_v3 a then
    let d0 := final_dim (c_dims (a_cfg a)) in
    let n := frames_before_flush (c_dims (a_cfg a)) (u32 (d_chunk d0 * d_shard d0)) in
    if 0 <? n then Ok (a_frames a mod n =? 0) else Throw "CHECK(frames_before_flush > 0)"
  else Ok true.

(** ArrayWriter::compress_buffers_ (array.writer.cpp:339-393): one job per buffer; if
    blosc reports an error (negative size) tmp.resize throws, the job reports it, the
    buffer keeps its raw bytes *)
Definition compress_buffers (E : env) : M AW unit :=
  a <- getA ;;
  match c_comp (a_cfg a) with
  | None => ret tt
  | Some params =>
      bpp <- liftM (bytes_of_type (c_dtype (a_cfg a))) ;;
      miter (fun i =>
               a <- getA ;;
               match e_compress E params bpp (nth i (a_bufs a) []) with
               | Some out => modA (fun a => set_bufs a (upd (a_bufs a) i out)) ;;; onWd (job_done (true, ""))
               | None => onWd (job_done (false, "Failed to compress chunk: vector::_M_default_append"))
               end)
            (seq 0 (List.length (a_bufs a)))
  end.

(** ArrayWriter::make_data_sinks_ (array.writer.cpp:141-187) *)
Definition data_root (a : writer) : string :=
  let c := a_cfg a in
  if a_v3 a
  then c_root c ++ "/data/root/" ++ dec (c_level c) ++ "/c" ++ dec (a_append a)
  else c_root c ++ "/" ++ dec (c_level c) ++ "/" ++ dec (a_append a).
Definition parts_along (a : writer) : dim -> outcome Z :=
  if a_v3 a then shards_along_dimension else chunks_along_dimension.
Definition make_data_sinks (E : env) : M AW bool :=
  a <- getA ;;
  r <- onWd (match c_bucket (a_cfg a) with
             | Some b => make_data_sinks_s3 E b (data_root a) (c_dims (a_cfg a)) (parts_along a)
             | None => make_data_sinks_fs E (data_root a) (c_dims (a_cfg a)) (parts_along a)
             end) ;;
  match r with
  | Some l => modA (fun a => set_sinks a l) ;;; ret true
  | None => ret false
  end.

(** ArrayWriter::make_metadata_sink_ (array.writer.cpp:189-227) *)
Definition metadata_path (a : writer) : string :=
  let c := a_cfg a in
  if a_v3 a
  then c_root c ++ "/meta/root/" ++ dec (c_level c) ++ ".array.json"
  else c_root c ++ "/" ++ dec (c_level c) ++ "/.zarray".
Definition make_metadata_sink (E : env) : M AW bool :=
  a <- getA ;;
  match a_meta a with
  | Some _ => ret true
  | None =>
      r <- onWd (match c_bucket (a_cfg a) with
                 | Some b => make_sink_s3 E b (metadata_path a)
                 | None => make_sink_fs E (metadata_path a)
                 end) ;;
      match r with
      | Some s => modA (fun a => set_meta a (Some s)) ;;; ret true
      | None => ret false
      end
  end.

(** ** Array metadata *)

(** ceil-division of the frame count through the middle dimensions
    (zarrv2.array.writer.cpp:137-143, zarrv3.array.writer.cpp:171-177) *)
Definition append_size (a : writer) : outcome Z :=
  ofold (fun n d => if d_array d =? 0 then Throw "CHECK(array_size_px)"
                    else Ok (u64 (n + d_array d - 1) / d_array d))
        (rev (mid_dims (c_dims (a_cfg a)))) (a_frames a).

(** sample_type_to_dtype, v2, little-endian host (zarrv2.array.writer.cpp:12-57) *)
Definition dtype_v2 (t : Z) : option string :=
  if t =? dt_uint8 then Some "<u1" else if t =? dt_uint16 then Some "<u2"
  else if t =? dt_uint32 then Some "<u4" else if t =? dt_uint64 then Some "<u8"
  else if t =? dt_int8 then Some "<i1" else if t =? dt_int16 then Some "<i2"
  else if t =? dt_int32 then Some "<i4" else if t =? dt_int64 then Some "<i8"
  else if t =? dt_float32 then Some "<f4" else if t =? dt_float64 then Some "<f8"
  else None.

(** sample_type_to_dtype, v3 (zarrv3.array.writer.cpp:17-45) *)
Definition dtype_v3 (t : Z) : option string :=
  if t =? dt_uint8 then Some "uint8" else if t =? dt_uint16 then Some "uint16"
  else if t =? dt_uint32 then Some "uint32" else if t =? dt_uint64 then Some "uint64"
  else if t =? dt_int8 then Some "int8" else if t =? dt_int16 then Some "int16"
  else if t =? dt_int32 then Some "int32" else if t =? dt_int64 then Some "int64"
  else if t =? dt_float32 then Some "float32" else if t =? dt_float64 then Some "float64"
  else None.

Definition jints (l : list Z) : json := JArr (map JInt l).

(** the JSON object of zarrv2.array.writer.cpp:153-171 (keys in std::map order) *)
Definition zarray_json (shape0 : Z) (ds : list dim) (dtype : string) (comp : option blosc) : json :=
  JObj [ ("chunks", jints (map d_chunk ds));
         ("compressor", match comp with
                        | None => JNull
                        | Some b => JObj [ ("clevel", JInt (b_clevel b)); ("cname", JStr (b_codec b));
                                           ("id", JStr "blosc"); ("shuffle", JInt (b_shuffle b)) ]
                        end);
         ("dimension_separator", JStr "/");
         ("dtype", JStr dtype);
         ("fill_value", JInt 0);
         ("filters", JNull);
         ("order", JStr "C");
         ("shape", jints (shape0 :: map d_array (tl ds)));
         ("zarr_format", JInt 2) ].

(** the JSON object of zarrv3.array.writer.cpp:190-232 *)
Definition array_json (shape0 : Z) (ds : list dim) (dtype : string) (comp : option blosc) : json :=
  JObj [ ("attributes", JObj []);
         ("chunk_grid", JObj [ ("chunk_shape", jints (map d_chunk ds)); ("separator", JStr "/");
                               ("type", JStr "regular") ]);
         ("chunk_memory_layout", JStr "C");
         ("compressor", match comp with
                        | None => JNull
                        | Some b =>
                            JObj [ ("codec", JStr "https://purl.org/zarr/spec/codec/blosc/1.0");
                                   ("configuration",
                                     JObj [ ("blocksize", JInt 0); ("clevel", JInt (b_clevel b));
                                            ("cname", JStr (b_codec b)); ("shuffle", JInt (b_shuffle b)) ]) ]
                        end);
         ("data_type", JStr dtype);
         ("extensions", JArr []);
         ("fill_value", JInt 0);
         ("shape", jints (shape0 :: map d_array (tl ds)));
         ("storage_transformers",
           JArr [ JObj [ ("configuration", JObj [ ("chunks_per_shard", jints (map d_shard ds)) ]);
                         ("extension", JStr "https://purl.org/zarr/spec/storage_transformers/sharding/1.0");
                         ("type", JStr "indexed") ] ]) ].

(** ZarrV2ArrayWriter::write_array_metadata_ (zarrv2.array.writer.cpp:121-177),
    ZarrV3ArrayWriter::write_array_metadata_ (zarrv3.array.writer.cpp:160-239) *)
Definition write_array_metadata (E : env) : M AW bool :=
  ok <- make_metadata_sink E ;;
  if ok then
    a <- getA ;;
    let c := a_cfg a in
    if a_v3 a then
      n <- liftM (append_size a) ;;
      match dtype_v3 (c_dtype c) with
      | None => throwM "Invalid ZarrDataType"
      | Some t => on_meta (sink_write E 0 (bytes_of_string (dump (array_json n (c_dims c) t (c_comp c)))))
      end
    else
      match dtype_v2 (c_dtype c) with
      | None => ret false
      | Some t =>
          n <- liftM (append_size a) ;;
          on_meta (sink_write E 0 (bytes_of_string (dump (zarray_json n (c_dims c) t (c_comp c)))))
      end
  else ret false.

(** ** Flushing *)

(** the job of ZarrV2ArrayWriter::flush_impl_ (zarrv2.array.writer.cpp:92-110) *)
Definition v2_job (E : env) (i : nat) : M AW unit :=
  a <- getA ;;
  r <- catchM (ok <- on_sink i (sink_write E 0 (nth i (a_bufs a) [])) ;;
               expectM ok "CHECK(sink->write(0, data))" ;;; ret (true, ""))
              (fun m => ret (false, "Failed to write chunk: " ++ m)) ;;
  onWd (job_done r).

(** ZarrV2ArrayWriter::flush_impl_ (zarrv2.array.writer.cpp:75-119) *)
Definition flush_impl_v2 (E : env) : M AW bool :=
  a <- getA ;;
  expectM (match a_sinks a with [] => true | _ => false end) "CHECK(data_sinks_.empty())" ;;;
  ok <- make_data_sinks E ;;
  if ok then
    a <- getA ;;
    expectM (Nat.eqb (List.length (a_sinks a)) (List.length (a_bufs a)))
            "CHECK(data_sinks_.size() == chunk_buffers_.size())" ;;;
    miter (v2_job E) (seq 0 (List.length (a_sinks a))) ;;;
    ret true
  else ret false.

(** chunk_in_shards (zarrv3.array.writer.cpp:85-90): the chunks of each shard, in increasing order *)
Definition chunks_in_shards (ds : list dim) (nshards : Z) (nbufs : nat) : outcome (list (list nat)) :=
  ofold (fun acc i =>
           let? s := shard_index_for_chunk ds (Z.of_nat i) in
           if s <? nshards then Ok (upd acc (Z.to_nat s) (nth (Z.to_nat s) acc [] ++ [i])%list) else UB)
        (seq 0 nbufs) (zrep [] nshards).

(** the bytes of a shard table: little-endian uint64_t *)
Definition table_bytes (t : list Z) : list Z := flat_map (le_bytes 8) t.

(** chunk_table.at(i) = v *)
Definition table_set (t : list Z) (i v : Z) : outcome (list Z) :=
  if i <? zlen t then Ok (upd t (Z.to_nat i) v) else Throw "vector::_M_range_check".

(** one chunk of the job (zarrv3.array.writer.cpp:110-125). [success] is the variable of this name: an exception of sink->write leaves it
    as it was, one of chunk_table.at leaves it true. Result: its new value, and the message of an exception. *)
Definition v3_chunk (E : env) (s : nat) (success : bool) (ci : nat) : M AW (bool * option string) :=
  a <- getA ;;
  let data := nth ci (a_bufs a) [] in
  let off := nth s (a_offsets a) 0 in
  r <- catchM (ok <- on_sink s (sink_write E off data) ;; ret (ok, None)) (fun m => ret (success, Some m)) ;;
  match r with
  | (true, None) =>
      catchM (idx <- liftM (shard_internal_index (c_dims (a_cfg a)) (Z.of_nat ci)) ;;
              t1 <- liftM (table_set (nth s (a_tables a) []) (u32 (2 * idx)) off) ;;
              t2 <- liftM (table_set t1 (u32 (u32 (2 * idx) + 1)) (zlen data)) ;;
              modA (fun a => set_offsets (set_tables a (upd (a_tables a) s t2))
                                         (upd (a_offsets a) s (u64 (off + zlen data)))) ;;;
              ret (true, None))
             (fun m => ret (true, Some m))
  | _ => ret r
  end.

(** the loop (zarrv3.array.writer.cpp:110-125) *)
Fixpoint v3_chunks (E : env) (s : nat) (cs : list nat) (success : bool) : M AW (bool * option string) :=
  match cs with
  | [] => ret (success, None)
  | c :: cs' => r <- v3_chunk E s success c ;; match r with (true, None) => v3_chunks E s cs' true | _ => ret r end
  end.

(** the table (zarrv3.array.writer.cpp:127-133) *)
Definition v3_table (E : env) (s : nat) : M AW (bool * option string) :=
  a <- getA ;;
  catchM (ok <- on_sink s (sink_write E (nth s (a_offsets a) 0) (table_bytes (nth s (a_tables a) []))) ;; ret (ok, None))
         (fun m => ret (true, Some m)).

(** the job of ZarrV3ArrayWriter::flush_impl_ (zarrv3.array.writer.cpp:100-140). The exception handler sets only the message, so a job
    that ends with an exception after a chunk was written reports success. *)
Definition v3_job (E : env) (write_table : bool) (cis : list (list nat)) (s : nat) : M AW unit :=
  r <- v3_chunks E s (nth s cis []) false ;;
  r <- (match r with (true, None) => if write_table then v3_table E s else ret r | _ => ret r end) ;;
  onWd (job_done (fst r, match snd r with Some m => "Failed to write chunk: " ++ m | None => "" end)).

(** ZarrV3ArrayWriter::flush_impl_ (zarrv3.array.writer.cpp:74-158) *)
Definition flush_impl_v3 (E : env) : M AW bool :=
  a <- getA ;;
  ok <- (match a_sinks a with [] => make_data_sinks E | _ => ret true end) ;;
  if ok then
    a <- getA ;;
    let ds := c_dims (a_cfg a) in
    n <- liftM (number_of_shards ds) ;;
    expectM (zlen (a_sinks a) =? n) "CHECK(data_sinks_.size() == n_shards)" ;;;
    cis <- liftM (chunks_in_shards ds n (List.length (a_bufs a))) ;;
    roll <- (if a_final a then ret true else liftM (should_rollover a)) ;;
    miter (v3_job E roll cis) (seq 0 (Z.to_nat n)) ;;;
    (if roll then
       modA (fun a => set_offsets (set_tables a (map (fun t => zrep max64 (zlen t)) (a_tables a)))
                                  (map (fun _ => 0) (a_offsets a)))
     else ret tt) ;;;
    ret true
  else ret false.

Definition flush_impl (E : env) : M AW bool :=
  a <- getA ;; if a_v3 a then flush_impl_v3 E else flush_impl_v2 E.

(** ArrayWriter::close_sinks_ (array.writer.cpp:422-431) *)
Definition close_sinks (E : env) : M AW unit :=
  a <- getA ;;
  miter (fun i => ok <- on_slot i (finalize_sink E) ;; expectM ok "Failed to finalize sink")
        (seq 0 (List.length (a_sinks a))) ;;;
  modA (fun a => set_sinks a []).

(** ArrayWriter::rollover_ (array.writer.cpp:433-440) *)
Definition rollover (E : env) : M AW unit :=
  close_sinks E ;;; modA (fun a => set_append a (u32 (a_append a + 1))).

(** ArrayWriter::flush_ (array.writer.cpp:395-420) *)
Definition flush (E : env) : M AW unit :=
  a <- getA ;;
  if a_toflush a =? 0 then ret tt
  else
    compress_buffers E ;;;
    ok <- flush_impl E ;;
    expectM ok "CHECK(flush_impl_())" ;;;
    a <- getA ;;
    roll <- liftM (should_rollover a) ;;
    (if roll then rollover E else ret tt) ;;;
    a <- getA ;;
    (if roll || a_final a then
       ok <- write_array_metadata E ;; expectM ok "CHECK(write_array_metadata_())"
     else ret tt) ;;;
    a <- getA ;;
    a' <- liftM (make_buffers a) ;;
    modA (fun _ => set_toflush a' 0).

(** ArrayWriter::write_frame (array.writer.cpp:99-133) *)
Definition write_frame (E : env) (data : list Z) : M AW Z :=
  a <- getA ;;
  nf <- liftM (bytes_of_frame (c_dims (a_cfg a)) (c_dtype (a_cfg a))) ;;
  if negb (nf =? zlen data) then ret 0
  else
    (match a_bufs a with
     | [] => a' <- liftM (make_buffers a) ;; modA (fun _ => a')
     | _ => ret tt
     end) ;;;
    a <- getA ;;
    '(bufs, written) <- liftM (write_frame_to_chunks a data) ;;
    modA (fun a => set_bufs a bufs) ;;;
    expectM (written =? zlen data) "Failed to write frame to chunks" ;;;
    modA (fun a => set_frames (set_toflush a (u64 (a_toflush a + written))) (u32 (a_frames a + 1))) ;;;
    a <- getA ;;
    sf <- liftM (should_flush a) ;;
    (if sf then flush E else ret tt) ;;;
    ret written.

(** zarr::finalize_array (array.writer.cpp:442-465); on success the writer is destroyed, which
    closes the data sinks that are still open *)
Definition finalize_array (E : env) : M AW bool :=
  modA (fun a => set_final a true) ;;;
  ok <- catchM (flush E ;;; ret true) (fun _ => ret false) ;;
  if ok then
    ok2 <- on_meta_slot (finalize_sink E) ;;
    if ok2 then
      a <- getA ;;
      miter (fun s => match s with Some s => onWd (sink_destroy s) | None => ret tt end) (a_sinks a) ;;;
      modA (fun a => set_sinks (set_bufs a []) []) ;;;
      ret true
    else ret false
  else ret false.
