(** The jobs of the library as jobs of the thread pool (Pool.v): what each does to the data it shares with the client thread, and where it counts
    the latch down. *)
Require Import ZArith List Bool String.
Require Import Verif.Base Verif.Dim Verif.World Verif.Writer Verif.Pool Verif.PoolSpec.
Import ListNotations.
Open Scope string_scope.
Open Scope Z_scope.

(** the error handler of the stream (zarr.stream.cpp:389): set_error_ *)
Definition on_error (m : string) (aw : AW) : AW := (fst aw, mkworld (w_trace (snd aw)) (w_tick (snd aw)) (w_conns (snd aw)) m).

(** what is left of a job that does something undefined or hangs is not modelled: it shows as this local state *)
Definition undefined : local := (false, "undefined").
Definition local_of (r : outcome local) : local := match r with Ok l => l | _ => undefined end.

(** the job of ZarrV2ArrayWriter::flush_impl_ for sink and buffer i (zarrv2.array.writer.cpp:92-110) *)
Definition v2_body (E : env) (i : nat) : M AW local :=
  a <- getA ;;
  catchM (ok <- on_sink i (sink_write E 0 (nth i (a_bufs a) [])) ;;
          expectM ok "CHECK(sink->write(0, data))" ;;; ret (true, ""))
         (fun m => ret (false, "Failed to write chunk: " ++ m)).
Definition v2_pool_job (E : env) (i : nat) : job AW :=
  [Act (fun _ aw => let '(aw', r) := v2_body E i aw in (local_of r, aw')); CountDown].

(** the job of ZarrV3ArrayWriter::flush_impl_ for shard s (zarrv3.array.writer.cpp:100-140): one step for `bool success = false`, one per chunk, one
    for the table. [v3_local]: success, err; the loop goes on and the table is written only after a successful step. *)
Definition v3_local (r : outcome (bool * option string)) : local :=
  match r with
  | Ok (b, None) => (b, "")
  | Ok (b, Some m) => (b, "Failed to write chunk: " ++ m)
  | _ => undefined
  end.
Definition v3_step (first : bool) (m : bool -> M AW (bool * option string)) : action AW :=
  Act (fun l aw => if first || fst l && String.eqb (snd l) ""
                   then let '(aw', r) := m (fst l) aw in (v3_local r, aw')
                   else (l, aw)).
Fixpoint v3_steps (E : env) (s : nat) (first : bool) (cs : list nat) : job AW :=
  match cs with
  | [] => []
  | c :: r => v3_step first (fun success => v3_chunk E s success c) :: v3_steps E s false r
  end.
Definition v3_pool_job (E : env) (write_table : bool) (cis : list (list nat)) (s : nat) : job AW :=
  Act (fun _ aw => ((false, ""), aw)) :: v3_steps E s true (nth s cis []) ++
  (if write_table then [v3_step false (fun _ => v3_table E s)] else []) ++ [CountDown].

(** the job of compress_buffers_ for buffer i (array.writer.cpp:356-386) *)
Definition compress_body (E : env) (params : blosc) (bpp : Z) (i : nat) : M AW local :=
  a <- getA ;;
  match e_compress E params bpp (nth i (a_bufs a) []) with
  | Some out => modA (fun a => set_bufs a (upd (a_bufs a) i out)) ;;; ret (true, "")
  | None => ret (false, "Failed to compress chunk: vector::_M_default_append")
  end.
Definition compress_pool_job (E : env) (params : blosc) (bpp : Z) (i : nat) : job AW :=
  [Act (fun _ aw => let '(aw', r) := compress_body E params bpp i aw in (local_of r, aw')); CountDown].

(** *** creation of directories and files: world, all_successful, what the function returned *)
Record mk : Type := mkmk { m_world : world; m_all : bool; m_sinks : list (option sink); m_out : option bool }.
Definition mk_error (m : string) (d : mk) : mk :=
  mkmk (mkworld (w_trace (m_world d)) (w_tick (m_world d)) (w_conns (m_world d)) m) (m_all d) (m_sinks d) (m_out d).

(** the part of the job of make_dirs_ (sink.creator.cpp:268-300) before latch.count_down() *)
Definition dir_body (E : env) (p : string) (all : bool) : M world local :=
  if String.eqb p "" then ret (false, "Directory name must not be empty.")
  else
    isd <- in_task (fs_is_directory E p) ;;
    if isd then ret (true, "")
    else
      ex <- in_task (fs_exists E p) ;;
      if ex then ret (false, "exists but is not a directory")
      else if all then
        ok <- fs_create_directories E p ;;
        ret (if ok then (true, "") else (false, "Failed to create directory"))
      else ret (true, "").
(** the job; the flag is cleared after counting down *)
Definition dir_pool_job (E : env) (p : string) : job mk :=
  [Act (fun _ d => let '(w', r) := dir_body E p (m_all d) (m_world d) in (local_of r, mkmk w' (m_all d) (m_sinks d) (m_out d)));
   CountDown;
   Act (fun l d => (l, mkmk (m_world d) (m_all d && fst l) (m_sinks d) (m_out d)))].
(** the job of make_files_ (sink.creator.cpp:331-352, 381-403) for slot i *)
Definition file_pool_job (E : env) (i : nat) (p : string) : job mk :=
  [Act (fun _ d => if m_all d
                   then let '(w', r) := file_sink E p (m_world d) in
                        match r with
                        | Ok s => ((true, ""), mkmk w' (m_all d) (upd (m_sinks d) i (Some (SFile s))) (m_out d))
                        | Throw m => ((false, "Failed to create file: " ++ m), mkmk w' (m_all d) (m_sinks d) (m_out d))
                        | _ => (undefined, mkmk w' (m_all d) (m_sinks d) (m_out d))
                        end
                   else ((true, ""), d));
   CountDown;
   Act (fun l d => (l, mkmk (m_world d) (m_all d && fst l) (m_sinks d) (m_out d)))].
(** return (bool)all_successful *)
Definition read_all (k : client mk) : client mk := CDo (fun d => mkmk (m_world d) (m_all d) (m_sinks d) (Some (m_all d))) (fun _ => k).
(** SinkCreator::make_dirs_ (sink.creator.cpp:251-309) and make_files_ (sink.creator.cpp:311-358) for non-empty lists, as programs of the client thread *)
Definition make_dirs_prog (E : env) (ps : list string) (k : client mk) : client mk := batch (map (dir_pool_job E) ps) (read_all k).
Definition make_files_prog (E : env) (ps : list string) (k : client mk) : client mk :=
  batch (map (fun ip => file_pool_job E (fst ip) (snd ip)) (combine (seq 0 (List.length ps)) ps)) (read_all k).
