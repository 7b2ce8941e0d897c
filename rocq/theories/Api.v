(** Model of the C interface, acquire.zarr.cpp. *)
Require Import ZArith List Bool String.
Require Import Verif.Base Verif.Dim Verif.World Verif.Writer Verif.Stream.
Import ListNotations.
Open Scope string_scope.
Open Scope list_scope.
Open Scope Z_scope.

(** ZarrStatusCode (include/zarr.types.h:13-26) *)
Definition st_success : Z := 0.
Definition st_invalid_argument : Z := 1.
Definition st_internal_error : Z := 5.
Definition st_out_of_memory : Z := 6.

(** ** Streams *)

(** ZarrStream_create (acquire.zarr.cpp:136-150). Not modelled: std::bad_alloc. *)
Definition api_create (E : env) (o : option settings) : M world (option stream) :=
  catchM (s <- new_stream E o ;; ret (Some s)) (fun _ => ret None).

(** ZarrStream_append (acquire.zarr.cpp:161-178): status and, if it was set, the value of
    *bytes_out. [data = None] and [out = false] are null pointers; a non-null stream. *)
Definition api_append (E : env) (data : option (list Z)) (out : bool) : M TW (Z * option Z) :=
  match data with
  | None => ret (st_invalid_argument, None)
  | Some d =>
      if out then
        catchM (n <- append E d ;; ret (st_success, Some n))
               (fun _ => ret (st_internal_error, None))
      else ret (st_invalid_argument, None)
  end.
(** ZarrStream_append with a null stream *)
Definition api_append_null (data : option (list Z)) (out : bool) : Z * option Z := (st_invalid_argument, None).

(** ZarrStream_destroy (acquire.zarr.cpp:152-159): true iff the stream object was deleted; an
    exception of finalize_stream leaves the function. *)
Definition api_destroy (E : env) : M TW bool := finalize_stream E.

(** a sequence of append calls *)
Fixpoint api_appends (E : env) (calls : list (list Z)) : M TW (list (Z * option Z)) :=
  match calls with
  | [] => ret []
  | d :: l => r <- api_append E (Some d) true ;; rs <- api_appends E l ;; ret (r :: rs)
  end.

(** The life of one stream: create, append calls, destroy. The result is None if no stream
    was created; otherwise what the append calls returned, and whether the stream was deleted. *)
Definition session (E : env) (st : settings) (calls : list (list Z)) : M world (option (list (Z * option Z) * bool)) :=
  o <- api_create E (Some st) ;;
  match o with
  | None => ret None
  | Some s =>
      fun w =>
        let '((s', w'), r) := (rs <- api_appends E calls ;; d <- api_destroy E ;; ret (Some (rs, d))) (s, w) in
        (w', r)
  end.

(** ** The dimension array (acquire.zarr.cpp:97-134) *)

(** The arrays that are allocated: address and element count. [h_next] is an address no
    live array has. *)
Record heap : Type := mkheap { h_live : list (Z * Z); h_next : Z }.
(** the two fields of ZarrStreamSettings *)
Record dimfields : Type := mkdf { df_ptr : option Z; df_count : Z }.

Definition HD := (heap * dimfields)%type.

(** delete[] p; freeing what is not live is undefined behaviour *)
Definition heap_free (h : heap) (p : Z) : outcome heap :=
  if existsb (fun x => fst x =? p) (h_live h)
  then Ok (mkheap (filter (fun x => negb (fst x =? p)) (h_live h)) (h_next h)) else UB.

(** ZarrStreamSettings_destroy_dimension_array (acquire.zarr.cpp:122-134), non-null settings *)
Definition destroy_dims : M HD unit :=
  fun '(h, s) =>
    match df_ptr s with
    | Some p => match heap_free h p with
                | Ok h' => ((h', mkdf None 0), Ok tt)
                | _ => ((h, s), UB)
                end
    | None => ((h, mkdf None 0), Ok tt)
    end.

(** ZarrStreamSettings_create_dimension_array (acquire.zarr.cpp:97-120), non-null settings.
    [mem] = operator new succeeds; a fresh array gets an address that is not live. *)
Definition create_dims (mem : bool) (n : Z) : M HD Z :=
  fun '(h, s) =>
    if n <? 3 then ((h, s), Ok st_invalid_argument)
    else if mem then
      let p := h_next h in
      (destroy_dims ;;;
       (fun '(h', s') => ((h', mkdf (Some p) n), Ok st_success))) (mkheap ((p, n) :: h_live h) (p + 1), s)
    else ((h, s), Ok st_out_of_memory).

(** ** Logging and status messages (acquire.zarr.cpp:14-95, logger.hh, logger.cpp) *)

(** LogLevel and ZarrLogLevel: Debug, Info, Warning, Error, None = 0 .. 4 (logger.types.h:3-9,
    zarr.types.h:35-43). Zarr_set_log_level: status and the new level. *)
Definition set_log_level (cur : Z) (level : Z) : Z * Z :=
  if (0 <=? level) && (level <=? 4) then (st_success, level) else (st_invalid_argument, cur).
(** Zarr_get_log_level (acquire.zarr.cpp:46-67) *)
Definition get_log_level (cur : Z) : Z := cur.
(** Logger::current_level_ at start (logger.cpp:7) *)
Definition initial_log_level : Z := 1.

(** Logger::log (logger.hh:18-63): where a message of [level] goes, if anywhere *)
Inductive out_stream : Type := Cout | Cerr.
Definition log_target (cur level : Z) : option out_stream :=
  if level <? cur then None
  else Some (if (level =? 0) || (level =? 1) || (level =? 2) then Cout else Cerr).

(** Zarr_get_status_message (acquire.zarr.cpp:69-95) *)
Definition status_message (code : Z) : string :=
  if code =? 0 then "Success" else if code =? 1 then "Invalid argument" else if code =? 2 then "Buffer overflow"
  else if code =? 3 then "Invalid index" else if code =? 4 then "Not yet implemented"
  else if code =? 5 then "Internal error" else if code =? 6 then "Out of memory"
  else if code =? 7 then "I/O error" else if code =? 8 then "Compression error"
  else if code =? 9 then "Invalid settings" else "Unknown error".
