(** The outside world (filesystem, S3, compressor) as an event trace plus answer oracles, and
    the model of file.sink.cpp, s3.sink.cpp, s3.connection.cpp, sink.cpp and sink.creator.cpp. *)
Require Import ZArith List Bool String Ascii.
Require Import Verif.Base Verif.Dim Verif.Json.
Import ListNotations.
Open Scope string_scope.
Open Scope Z_scope.

(** ** The environment *)

(** BloscCompressionParams (blosc.compression.params.hh) *)
Record blosc : Type := mkblosc { b_codec : string; b_clevel : Z; b_shuffle : Z }.

(** Everything the program does not control. *)
Record env : Type := mkenv {
  e_file0 : string -> option (list Z);     (* files before the stream was created *)
  e_dir0 : string -> bool;                 (* directories before the stream was created *)
  e_obj0 : string -> string -> option (list Z); (* objects (bucket, key) before *)
  e_fault : nat -> bool;                   (* filesystem request number k fails *)
  e_s3 : nat -> bool;                      (* S3 request number k succeeds *)
  e_conns : nat;                           (* hardware_concurrency() *)
  e_compress : blosc -> Z -> list Z -> option (list Z);
       (* blosc_compress_ctx with the given type size: the nb bytes produced, None if nb < 0 *)
  e_writable : string -> bool;             (* some write permission bit of the directory is set *)
  e_parse : string -> option string;
       (* nlohmann::json::parse (comments ignored) and dump(4) of the value; None = discarded *)
  e_stat : nat -> string -> bool
       (* after k requests, the status of this path can be asked for; if not (name too long, no permission to search,
          input/output error ...), std::filesystem throws *)
}.

Inductive event : Type :=
| EMkdir (p : string)
| ERemoveAll (p : string)
| EOpen (p : string)                       (* created or truncated *)
| EWrite (p : string) (off : Z) (data : list Z)
| EFlush (p : string)
| EClose (p : string)
| EPut (b k : string) (data : list Z)
| EMpCreate (b k : string) (id : Z)
| EMpPart (b k : string) (id n : Z) (data : list Z)
| EMpComplete (b k : string) (id : Z) (parts : list Z).

Record world : Type := mkworld {
  w_trace : list event;                    (* oldest first *)
  w_tick : nat;                            (* external requests made so far *)
  w_conns : nat;                           (* connections in the S3 pool *)
  w_err : string                           (* ZarrStream_s::error_ (zarr.stream.hh:42) *)
}.

Definition emit (e : event) : M world unit :=
  modM (fun w => mkworld (w_trace w ++ [e])%list (w_tick w) (w_conns w) (w_err w)).

(** ZarrStream_s::set_error_ (zarr.stream.cpp:536-540) *)
Definition set_error (m : string) : M world unit :=
  modM (fun w => mkworld (w_trace w) (w_tick w) (w_conns w) m).

Definition next_tick : M world nat :=
  fun w => (mkworld (w_trace w) (S (w_tick w)) (w_conns w) (w_err w), Ok (w_tick w)).

(** ** Contents derived from the trace *)

(** [data] written at offset [off]: zero-filled if the file is shorter. *)
Definition write_at (buf : list Z) (off : Z) (data : list Z) : list Z :=
  splice (buf ++ zrep 0 (off + zlen data - zlen buf))%list off data.

(** [p] is [d] or lies below directory [d] *)
Definition under (d p : string) : bool := String.eqb p d || String.prefix (d ++ "/") p.

Definition file_step (p : string) (c : option (list Z)) (e : event) : option (list Z) :=
  match e with
  | EOpen q => if String.eqb q p then Some [] else c
  | EWrite q off data =>
      if String.eqb q p then
        match c with Some buf => Some (write_at buf off data) | None => None end
      else c
  | ERemoveAll q => if under q p then None else c
  | _ => c
  end.

(** Content of file [p] after the events [tr]. *)
Definition file_of (E : env) (tr : list event) (p : string) : option (list Z) :=
  fold_left (file_step p) tr (e_file0 E p).

Definition dir_step (p : string) (c : bool) (e : event) : bool :=
  match e with
  | EMkdir q => c || under p q
  | ERemoveAll q => if under q p then false else c
  | _ => c
  end.

(** Is [p] a directory after the events [tr]? *)
Definition dir_of (E : env) (tr : list event) (p : string) : bool :=
  negb (String.eqb p "") && fold_left (dir_step p) tr (e_dir0 E p).
(** Can entries be made in parent directory [p]? The empty parent of a relative name is the
    current directory (and, simplifying, the parent of "/name" is always there). *)
Definition parent_ok (E : env) (tr : list event) (p : string) : bool :=
  String.eqb p "" || dir_of E tr p.

(** Data of part [n] of upload [id], newest event first. *)
Fixpoint part_of (rtr : list event) (b k : string) (id n : Z) : list Z :=
  match rtr with
  | [] => []
  | EMpPart b' k' id' n' data :: r =>
      if String.eqb b b' && String.eqb k k' && (id =? id') && (n =? n')
      then data else part_of r b k id n
  | _ :: r => part_of r b k id n
  end.

(** Object (b, k), newest event first. *)
Fixpoint object_rev (E : env) (b k : string) (rtr : list event) : option (list Z) :=
  match rtr with
  | [] => e_obj0 E b k
  | EPut b' k' data :: r =>
      if String.eqb b b' && String.eqb k k' then Some data else object_rev E b k r
  | EMpComplete b' k' id parts :: r =>
      if String.eqb b b' && String.eqb k k'
      then Some (List.concat (map (part_of r b k id) parts)) else object_rev E b k r
  | _ :: r => object_rev E b k r
  end.

Definition object_of (E : env) (tr : list event) (b k : string) : option (list Z) :=
  object_rev E b k (rev tr).

(** ** Filesystem requests (std::filesystem, std::ofstream) *)

(** Everything before the last '/' ("" if none). *)
Fixpoint last_slash (l : list ascii) : option (list ascii) :=
  match l with
  | [] => None
  | c :: l' =>
      match last_slash l' with
      | Some r => Some (c :: r)
      | None => if Ascii.eqb c "/"%char then Some [] else None
      end
  end.
Definition parent_path (p : string) : string :=
  match last_slash (list_ascii_of_string p) with
  | None => ""
  | Some l => string_of_list_ascii l
  end.

(** is_directory(p) and exists(p): the overloads without error_code, which throw filesystem_error if the status cannot be found out (that there is no
    such file is an answer) *)
Definition fs_is_directory (E : env) (p : string) : M world bool :=
  fun w => (w, if e_stat E (w_tick w) p then Ok (dir_of E (w_trace w) p) else Throw "filesystem error: status").

Definition fs_exists (E : env) (p : string) : M world bool :=
  fun w => (w, if e_stat E (w_tick w) p
               then Ok (dir_of E (w_trace w) p
                        || negb (String.eqb p "") && match file_of E (w_trace w) p with Some _ => true | None => false end)
               else Throw "filesystem error: status").

(** create_directories with error_code: true iff the directory was created *)
Definition fs_create_directories (E : env) (p : string) : M world bool :=
  w <- getM ;;
  if dir_of E (w_trace w) p || String.eqb p "" then ret false
  else k <- next_tick ;;
       if e_fault E k then ret false else emit (EMkdir p) ;;; ret true.

(** remove_all: true iff no error *)
Definition fs_remove_all (E : env) (p : string) : M world bool :=
  k <- next_tick ;;
  if e_fault E k then ret false else emit (ERemoveAll p) ;;; ret true.

(** ** FileSink (file.sink.cpp) *)
Record fsink : Type := mkfsink { f_path : string; f_open : bool }.

(** FileSink::FileSink (file.sink.cpp:7-10): std::ofstream(binary | trunc); a failure to open is
    not looked at.  Opening needs the parent directory. (Simplification: the case where
    the path itself is a directory is not distinguished.) *)
Definition file_sink (E : env) (p : string) : M world fsink :=
  w <- getM ;;
  k <- next_tick ;;
  if parent_ok E (w_trace w) (parent_path p) && negb (e_fault E k) then emit (EOpen p) ;;; ret (mkfsink p true)
  else ret (mkfsink p false).

(** FileSink::write (file.sink.cpp:12-23): returns true whatever the stream says *)
Definition file_write (E : env) (s : fsink) (off : Z) (data : list Z) : M world bool :=
  if zlen data =? 0 then ret true
  else if f_open s then
    k <- next_tick ;;
    if e_fault E k then ret true
    else emit (EWrite (f_path s) off data) ;;; ret true
  else ret true.

(** FileSink::flush_ (file.sink.cpp:25-30) *)
Definition file_flush (s : fsink) : M world bool :=
  (if f_open s then emit (EFlush (f_path s)) else ret tt) ;;; ret true.

(** ~FileSink: the ofstream closes the file *)
Definition file_close (s : fsink) : M world unit :=
  if f_open s then emit (EClose (f_path s)) else ret tt.

(** ** S3 connections (s3.connection.cpp) *)

(** S3ConnectionPool::get_connection (s3.connection.cpp:241-256), accepting connections:
    waits until one is available; with an empty pool and nobody to return one, for ever *)
Definition get_connection : M world unit :=
  fun w => match w_conns w with
           | O => (w, Hang)
           | S n => (mkworld (w_trace w) (w_tick w) n (w_err w), Ok tt)
           end.
(** S3ConnectionPool::return_connection (s3.connection.cpp:258-264) *)
Definition return_connection : M world unit :=
  modM (fun w => mkworld (w_trace w) (w_tick w) (S (w_conns w)) (w_err w)).

(** one request to the server *)
Definition s3_request (E : env) : M world (bool * Z) :=
  k <- next_tick ;; ret (e_s3 E k, Z.of_nat k + 1).

(** S3Connection::put_object (s3.connection.cpp:53-83): empty etag on failure *)
Definition s3_put (E : env) (b k : string) (data : list Z) : M world bool :=
  expectM (negb (String.eqb b "")) "Bucket name must not be empty." ;;;
  expectM (negb (String.eqb k "")) "Object name must not be empty." ;;;
  expectM (negb (zlen data =? 0)) "Data must not be empty." ;;;
  '(ok, _) <- s3_request E ;;
  if ok then emit (EPut b k data) ;;; ret true else ret false.

(** S3Connection::create_multipart_object (s3.connection.cpp:111-136): throws on failure *)
Definition s3_create_multipart (E : env) (b k : string) : M world Z :=
  expectM (negb (String.eqb b "")) "Bucket name must not be empty." ;;;
  expectM (negb (String.eqb k "")) "Object name must not be empty." ;;;
  '(ok, id) <- s3_request E ;;
  expectM ok "Upload id returned empty." ;;;
  emit (EMpCreate b k id) ;;; ret id.

(** S3Connection::upload_multipart_object_part (s3.connection.cpp:138-181) *)
Definition s3_upload_part (E : env) (b k : string) (id n : Z) (data : list Z) : M world bool :=
  expectM (negb (String.eqb b "")) "Bucket name must not be empty." ;;;
  expectM (negb (String.eqb k "")) "Object name must not be empty." ;;;
  expectM (negb (zlen data =? 0)) "Number of bytes must be positive." ;;;
  expectM (negb (n =? 0)) "Part number must be positive." ;;;
  '(ok, _) <- s3_request E ;;
  if ok then emit (EMpPart b k id n data) ;;; ret true else ret false.

(** S3Connection::complete_multipart_object (s3.connection.cpp:183-215); id 0 is the empty id *)
Definition s3_complete (E : env) (b k : string) (id : Z) (parts : list Z) : M world bool :=
  expectM (negb (String.eqb b "")) "Bucket name must not be empty." ;;;
  expectM (negb (String.eqb k "")) "Object name must not be empty." ;;;
  expectM (negb (id =? 0)) "Upload id must not be empty." ;;;
  expectM (negb (zlen parts =? 0)) "Parts list must not be empty." ;;;
  '(ok, _) <- s3_request E ;;
  if ok then emit (EMpComplete b k id parts) ;;; ret true else ret false.

(** ** S3Sink (s3.sink.hh, s3.sink.cpp) *)

(** max_part_size_ (s3.sink.hh:32) *)
Definition part_size : Z := 5 * 2 ^ 20.

Record s3sink : Type := mks3 {
  s_bucket : string;
  s_key : string;
  s_buf : list Z;          (* initialised prefix of part_buffer_ *)
  s_nbuf : Z;              (* nbytes_buffered_ *)
  s_nflush : Z;            (* nbytes_flushed_ *)
  s_mp : option (Z * list Z)   (* upload id (0 = empty), part numbers *)
}.

(** S3Sink::S3Sink (s3.sink.cpp:10-20) *)
Definition s3_sink (b k : string) : M world s3sink :=
  expectM (negb (String.eqb b "")) "Bucket name must not be empty" ;;;
  expectM (negb (String.eqb k "")) "Object key must not be empty" ;;;
  ret (mks3 b k [] 0 0 None).

(** state of one sink together with the world *)
Definition SW := (s3sink * world)%type.
Definition onW {A} (m : M world A) : M SW A :=
  fun '(s, w) => let '(w', r) := m w in ((s, w'), r).
Definition getS : M SW s3sink := fun sw => (sw, Ok (fst sw)).
Definition putS (s : s3sink) : M SW unit := fun sw => ((s, snd sw), Ok tt).

(** S3Sink::create_multipart_upload_ (s3.sink.cpp:128-138): if the request throws the
    connection is not returned, and multipart_upload_ stays set with an empty id *)
Definition s3_create_upload (E : env) : M SW unit :=
  s <- getS ;;
  putS (mks3 (s_bucket s) (s_key s) (s_buf s) (s_nbuf s) (s_nflush s) (Some (0, []))) ;;;
  onW get_connection ;;;
  id <- onW (s3_create_multipart E (s_bucket s) (s_key s)) ;;
  putS (mks3 (s_bucket s) (s_key s) (s_buf s) (s_nbuf s) (s_nflush s) (Some (id, []))) ;;;
  onW return_connection.

(** S3Sink::flush_part_ (s3.sink.cpp:140-187): the counters advance even on failure *)
Definition s3_flush_part (E : env) : M SW bool :=
  s0 <- getS ;;
  if s_nbuf s0 =? 0 then ret false
  else
    match s_mp s0 with Some _ => ret tt | None => s3_create_upload E end ;;;
    onW get_connection ;;;
    s <- getS ;;
    match s_mp s with
    | None => ubM
    | Some (id, parts) =>
        let n := zlen parts + 1 in
        ok <- onW (catchM (s3_upload_part E (s_bucket s) (s_key s) id n (slice (s_buf s) 0 (s_nbuf s)))
                          (fun _ => ret false)) ;;
        onW return_connection ;;;
        putS (mks3 (s_bucket s) (s_key s) (s_buf s) 0 (u64 (s_nflush s + s_nbuf s))
                   (Some (id, if ok then (parts ++ [n])%list else parts))) ;;;
        ret ok
    end.

(** S3Sink::put_object_ (s3.sink.cpp:91-120) *)
Definition s3_put_object (E : env) : M SW bool :=
  s <- getS ;;
  if s_nbuf s =? 0 then ret false
  else
    onW get_connection ;;;
    ok <- onW (catchM (s3_put E (s_bucket s) (s_key s) (slice (s_buf s) 0 (s_nbuf s)))
                      (fun _ => ret false)) ;;
    (if ok then putS (mks3 (s_bucket s) (s_key s) (s_buf s) 0 (s_nbuf s) (s_mp s)) else ret tt) ;;;
    onW return_connection ;;;
    ret ok.

(** S3Sink::finalize_multipart_upload_ (s3.sink.cpp:189-203): an exception loses the connection *)
Definition s3_finalize (E : env) : M SW bool :=
  onW get_connection ;;;
  s <- getS ;;
  match s_mp s with
  | None => ubM
  | Some (id, parts) =>
      ok <- onW (s3_complete E (s_bucket s) (s_key s) id parts) ;;
      onW return_connection ;;;
      ret ok
  end.

(** S3Sink::flush_ (s3.sink.cpp:22-50) *)
Definition s3_flush (E : env) : M SW bool :=
  s <- getS ;;
  ok <- match s_mp s with
        | Some _ =>
            ok1 <- (if 0 <? s_nbuf s then s3_flush_part E else ret true) ;;
            if ok1 then s3_finalize E else ret false
        | None =>
            if 0 <? s_nbuf s then s3_put_object E else ret true
        end ;;
  if ok then
    s' <- getS ;;
    putS (mks3 (s_bucket s') (s_key s') (s_buf s') 0 (s_nflush s') (s_mp s')) ;;; ret true
  else ret false.

(** The loop of S3Sink::write (s3.sink.cpp:68-88). [fuel] bounds the number of
    iterations; running out of it is the outcome [Hang]. part_buffer_.size() - nbytes_buffered_
    is a size_t: if it wraps, copy_n writes outside the buffer. *)
Fixpoint s3_write_loop (E : env) (fuel : nat) (data : list Z) : M SW bool :=
  match fuel with
  | O => hangM
  | S f =>
      if zlen data =? 0 then ret true
      else
        s <- getS ;;
        if part_size <? s_nbuf s then ubM
        else
          let n := Z.min (zlen data) (part_size - s_nbuf s) in
          putS (mks3 (s_bucket s) (s_key s)
                     (write_at (s_buf s) (s_nbuf s) (firstn (Z.to_nat n) data))
                     (s_nbuf s + n) (s_nflush s) (s_mp s)) ;;;
          ok <- (if s_nbuf s + n =? part_size then s3_flush_part E else ret true) ;;
          if ok then s3_write_loop E f (skipn (Z.to_nat n) data) else ret false
  end.

(** S3Sink::write (s3.sink.cpp:52-89) *)
Definition s3_write (E : env) (off : Z) (data : list Z) : M SW bool :=
  if zlen data =? 0 then ret true
  else
    s <- getS ;;
    if off <? s_nflush s then ret false
    else
      putS (mks3 (s_bucket s) (s_key s) (s_buf s) (off - s_nflush s) (s_nflush s) (s_mp s)) ;;;
      s3_write_loop E (2 * List.length data + 2) data.

(** ** Sinks *)
Inductive sink : Type :=
| SFile (s : fsink)
| SS3 (s : s3sink).

(** One sink and the world; the sink keeps its state when a call throws. *)
Definition KW := (sink * world)%type.

Definition runS {A} (s : s3sink) (m : M SW A) : M KW A :=
  fun kw => let '((s', w'), r) := m (s, snd kw) in ((SS3 s', w'), r).
Definition runF {A} (m : M world A) : M KW A :=
  fun kw => let '(w', r) := m (snd kw) in ((fst kw, w'), r).

(** Sink::write (sink.hh) *)
Definition sink_write (E : env) (off : Z) (data : list Z) : M KW bool :=
  fun kw => match fst kw with
            | SFile f => runF (file_write E f off data) kw
            | SS3 s3 => runS s3 (s3_write E off data) kw
            end.

(** Sink::flush_ *)
Definition sink_flush (E : env) : M KW bool :=
  fun kw => match fst kw with
            | SFile f => runF (file_flush f) kw
            | SS3 s3 => runS s3 (s3_flush E) kw
            end.

(** ~Sink *)
Definition sink_destroy (s : sink) : M world unit :=
  match s with SFile f => file_close f | SS3 _ => ret tt end.

(** zarr::finalize_sink (sink.cpp:4-18) on a slot holding a sink or nullptr: on success the
    slot is reset *)
Definition finalize_sink (E : env) : M (option sink * world) bool :=
  fun '(o, w) =>
    match o with
    | None => ((None, w), Ok true)
    | Some s =>
        match sink_flush E (s, w) with
        | ((s', w'), Ok true) => let '(w'', _) := sink_destroy s' w' in ((None, w''), Ok true)
        | ((s', w'), r) => ((Some s', w'), r)
        end
    end.

(** ** SinkCreator (sink.creator.cpp) *)

(** path.starts_with("file://") -> path.substr(7) (sink.creator.cpp:25-27, 70-72, 110-112) *)
Definition strip_file (p : string) : string :=
  if String.prefix "file://" p then String.substring 7 (String.length p - 7) p else p.

(** A worker job ran and returned (success, err): ThreadPool::process_tasks_ calls the error
    handler (thread.pool.cpp:91-93), which is set_error_ (zarr.stream.cpp:389). In this
    sequential model the handler runs before the next job; Pool.v treats other schedules. *)
Definition job_done (r : bool * string) : M world unit :=
  if fst r then ret tt else set_error (snd r).

(** An exception that leaves a task: ThreadPool::process_tasks_ (thread.pool.cpp:75-96) does not catch it, std::terminate ends the process. The
    model has no outcome of its own for that: it is [UB], like everything after which nothing can be said. *)
Definition in_task {A} (m : M world A) : M world A :=
  fun w => match m w with (w', Throw _) => (w', UB) | r => r end.

(** the job of make_dirs_ (sink.creator.cpp:268-300); returns the new all_successful *)
Definition make_dir_job (E : env) (all : bool) (d : string) : M world bool :=
  if String.eqb d "" then job_done (false, "Directory name must not be empty.") ;;; ret false
  else
    isd <- in_task (fs_is_directory E d) ;;
    if isd then job_done (true, "") ;;; ret all
    else
      ex <- in_task (fs_exists E d) ;;
      if ex then job_done (false, "exists but is not a directory") ;;; ret false
      else if all then
        ok <- fs_create_directories E d ;;
        if ok then job_done (true, "") ;;; ret all
        else job_done (false, "Failed to create directory") ;;; ret false
      else job_done (true, "") ;;; ret all.

(** SinkCreator::make_dirs_ (sink.creator.cpp:251-309) *)
Definition make_dirs (E : env) (ds : list string) : M world bool :=
  mfold (make_dir_job E) ds true.

(** SinkCreator::make_files_ into a vector (sink.creator.cpp:311-358). FileSink's constructor does
    not throw, so every job succeeds. *)
Definition make_files (E : env) (paths : list string) : M world (list (option sink)) :=
  mfold (fun acc p => s <- file_sink E p ;; job_done (true, "") ;;; ret (acc ++ [Some (SFile s)])%list)
        paths [].

(** the loops of make_data_sink_paths_ (sink.creator.cpp:154-171): each path is replaced by its children *)
Definition extend_paths (paths : list string) (n : Z) : list string :=
  flat_map (fun p => map (fun k => p ++ (if String.eqb p "" then dec k else "/" ++ dec k)) (zseq n)) paths.

(** the loop of sink.creator.cpp:182-194 *)
Definition final_paths (paths : list string) (n : Z) : list string :=
  flat_map (fun p => map (fun k => p ++ "/" ++ dec k) (zseq n)) paths.

(** SinkCreator::make_data_sink_paths_ (sink.creator.cpp:139-197) *)
Definition make_data_sink_paths (E : env) (base : string) (ds : list dim)
           (parts : dim -> outcome Z) (mkdirs : bool) : M world (list string) :=
  (if mkdirs then ok <- make_dirs E [base] ;; expectM ok "Failed to create directory" else ret tt) ;;;
  paths <- mfold (fun paths d =>
                    n <- liftM (parts d) ;;
                    expectM (negb (n =? 0)) "CHECK(n_parts)" ;;;
                    let paths' := extend_paths paths n in
                    (if mkdirs then ok <- make_dirs E paths' ;;
                                    expectM ok "Failed to create directories for dimension"
                     else ret tt) ;;;
                    ret paths')
                 (firstn (List.length ds - 2) (tl ds)) [base] ;;
  n <- liftM (parts (width_dim ds)) ;;
  expectM (negb (n =? 0)) "CHECK(n_parts)" ;;;
  ret (final_paths paths n).

(** SinkCreator::make_data_sinks, filesystem (sink.creator.cpp:63-86); None = returned false *)
Definition make_data_sinks_fs (E : env) (base : string) (ds : list dim) (parts : dim -> outcome Z)
  : M world (option (list (option sink))) :=
  let base := strip_file base in
  expectM (negb (String.eqb base "")) "Base path must not be empty." ;;;
  ps <- catchM (p <- make_data_sink_paths E base ds parts true ;; ret (Some p)) (fun _ => ret None) ;;
  match ps with
  | None => ret None
  | Some p => l <- make_files E p ;; ret (Some l)
  end.

(** SinkCreator::make_data_sinks, S3 (sink.creator.cpp:88-102, 425-452) *)
Definition make_data_sinks_s3 (E : env) (bucket base : string) (ds : list dim) (parts : dim -> outcome Z)
  : M world (option (list (option sink))) :=
  expectM (negb (String.eqb base "")) "Base path must not be empty." ;;;
  p <- make_data_sink_paths E base ds parts false ;;
  if String.eqb bucket "" then ret None
  else
    l <- mfold (fun acc k => s <- s3_sink bucket k ;; ret (acc ++ [Some (SS3 s)])%list) p [] ;;
    ret (Some l).

(** SinkCreator::make_sink, filesystem (sink.creator.cpp:22-46) *)
Definition make_sink_fs (E : env) (path : string) : M world (option sink) :=
  let path := strip_file path in
  expectM (negb (String.eqb path "")) "File path must not be empty." ;;;
  let par := parent_path path in
  d <- fs_is_directory E par ;;
  ok <- (if d then ret true else fs_create_directories E par) ;;
  if ok then s <- file_sink E path ;; ret (Some (SFile s)) else ret None.

(** SinkCreator::bucket_exists_ (sink.creator.cpp:411-423) *)
Definition bucket_exists (E : env) (b : string) : M world bool :=
  expectM (negb (String.eqb b "")) "CHECK(!bucket_name.empty())" ;;;
  get_connection ;;;
  '(ok, _) <- s3_request E ;;
  return_connection ;;;
  ret ok.

(** SinkCreator::make_sink, S3 (sink.creator.cpp:48-61) *)
Definition make_sink_s3 (E : env) (bucket key : string) : M world (option sink) :=
  expectM (negb (String.eqb bucket "")) "Bucket name must not be empty." ;;;
  expectM (negb (String.eqb key "")) "Object key must not be empty." ;;;
  ok <- bucket_exists E bucket ;;
  if ok then s <- s3_sink bucket key ;; ret (Some (SS3 s)) else ret None.

(** paths of make_metadata_sink_paths_ (sink.creator.cpp:206-221) *)
Definition metadata_paths (version : Z) : outcome (list string) :=
  if version =? 2 then Ok [".zattrs"; ".zgroup"; "0/.zattrs"; "acquire.json"]
  else if version =? 3 then Ok ["zarr.json"; "meta/root.group.json"; "meta/acquire.json"]
  else Throw "Invalid Zarr version".

(** the set of parent directories (sink.creator.cpp:230-240). Simplification: an
    unordered_set iterates in an unspecified order; each version has one such parent. *)
Definition metadata_dirs (version : Z) : list string :=
  if version =? 2 then ["0"] else ["meta"].

(** SinkCreator::make_metadata_sinks, filesystem (sink.creator.cpp:104-119, 223-246, 360-409);
    the unordered_map from name to sink is an association list *)
Definition make_metadata_sinks_fs (E : env) (version : Z) (base : string)
  : M world (list (string * option sink)) :=
  let base := strip_file base in
  expectM (negb (String.eqb base "")) "Base path must not be empty." ;;;
  names <- liftM (metadata_paths version) ;;
  ok <- make_dirs E [base] ;;
  expectM ok "Failed to create metadata directories." ;;;
  ok2 <- make_dirs E (map (fun d => base ++ "/" ++ d) (metadata_dirs version)) ;;
  expectM ok2 "Failed to create metadata directories." ;;;
  mfold (fun acc n => s <- file_sink E (base ++ "/" ++ n) ;; job_done (true, "") ;;;
                      ret (acc ++ [(n, Some (SFile s))])%list) names [].

(** SinkCreator::make_metadata_sinks, S3 (sink.creator.cpp:121-137, 454-482) *)
Definition make_metadata_sinks_s3 (E : env) (version : Z) (bucket base : string)
  : M world (option (list (string * option sink))) :=
  expectM (negb (String.eqb bucket "")) "Bucket name must not be empty." ;;;
  expectM (negb (String.eqb base "")) "Base path must not be empty." ;;;
  ok <- bucket_exists E bucket ;;
  if ok then
    names <- liftM (metadata_paths version) ;;
    l <- mfold (fun acc n => s <- s3_sink bucket (base ++ "/" ++ n) ;;
                             ret (acc ++ [(n, Some (SS3 s))])%list) names [] ;;
    ret (Some l)
  else ret None.
