(** A program that uses several streams: one thread, each stream with its own list of calls, the calls of different streams in any order. *)
Require Import ZArith List Bool String.
Require Import Verif.Base Verif.World Verif.Writer Verif.Stream Verif.Api.
Import ListNotations.
Open Scope string_scope. Open Scope list_scope. Open Scope Z_scope.

(** What the operating system and the S3 server answer to one stream: request number k of this stream (not of the process) fails or not. Every
    sequence of answers to the requests of the whole process is a family of such sequences, one for each stream. *)
Record answers : Type := mkanswers { an_fault : nat -> bool; an_s3 : nat -> bool; an_stat : nat -> string -> bool }.
Definition client_env (E : env) (a : answers) : env :=
  mkenv (e_file0 E) (e_dir0 E) (e_obj0 E) (an_fault a) (an_s3 a) (e_conns E) (e_compress E) (e_writable E) (e_parse E) (an_stat a).

(** what the calls returned: the pointer of ZarrStream_create, status and byte count of ZarrStream_append, the end of ZarrStream_destroy (true iff the
    object was deleted) *)
Inductive reply : Type :=
| RCreate (stream : bool)
| RAppend (status : Z) (out : option Z)
| RDestroy (deleted : bool).

Inductive phase : Type :=
| Fresh                  (* ZarrStream_create is still to be called *)
| Live (s : stream)
| Gone                   (* it was refused, or ZarrStream_destroy returned *)
| Stuck.                 (* a call that does not return *)

(** One user of the library: the settings, the buffers still to be appended, the stream object with what belongs to it alone: the error message and the
    connection pool (zarr.stream.hh:26-61; the static data of the library are the log level and its mutex, logger.hh:64-65, which are not modelled here). *)
Record client : Type := mkclient {
  k_set : settings;
  k_ans : answers;
  k_todo : list (list Z);
  k_phase : phase;
  k_tick : nat;
  k_conns : nat;
  k_err : string;
  k_said : list reply
}.
(** the process: what was done to the filesystem and to S3 by all streams together, in this order; [p_alive] is false after undefined behaviour or an
    exception that leaves a C function *)
Record process : Type := mkprocess { p_trace : list event; p_alive : bool; p_clients : list client }.

Definition start (st : settings) (a : answers) (calls : list (list Z)) : client := mkclient st a calls Fresh 0 0 "" [].

Definition client_world (tr : list event) (k : client) : world := mkworld tr (k_tick k) (k_conns k) (k_err k).
(** the client after a call: world, phase, rest, reply *)
Definition after_call (k : client) (w : world) (ph : phase) (rest : list (list Z)) (r : list reply) : client :=
  mkclient (k_set k) (k_ans k) rest ph (w_tick w) (w_conns w) (w_err w) (k_said k ++ r).

(** The next call of this client: ZarrStream_create (acquire.zarr.cpp:136-150), then one ZarrStream_append (acquire.zarr.cpp:161-178) for each buffer,
    then ZarrStream_destroy (acquire.zarr.cpp:152-159). The events so far, whether the process goes on, the client. *)
Definition turn (E : env) (tr : list event) (k : client) : list event * bool * client :=
  let e := client_env E (k_ans k) in
  let w := client_world tr k in
  match k_phase k with
  | Fresh =>
      let '(w', r) := api_create e (Some (k_set k)) w in
      match r with
      | Ok (Some s) => (w_trace w', true, after_call k w' (Live s) (k_todo k) [RCreate true])
      | Ok None => (w_trace w', true, after_call k w' Gone (k_todo k) [RCreate false])
      | Hang => (w_trace w', true, after_call k w' Stuck (k_todo k) [])
      | _ => (w_trace w', false, after_call k w' Gone (k_todo k) [])
      end
  | Live s =>
      match k_todo k with
      | d :: rest =>
          let '((s', w'), r) := api_append e (Some d) true (s, w) in
          match r with
          | Ok (status, out) => (w_trace w', true, after_call k w' (Live s') rest [RAppend status out])
          | Hang => (w_trace w', true, after_call k w' Stuck rest [])
          | _ => (w_trace w', false, after_call k w' Gone rest [])
          end
      | [] =>
          let '((s', w'), r) := api_destroy e (s, w) in
          match r with
          | Ok b => (w_trace w', true, after_call k w' Gone [] [RDestroy b])
          | Hang => (w_trace w', true, after_call k w' Stuck [] [])
          | _ => (w_trace w', false, after_call k w' Gone [] [])
          end
      end
  | Gone | Stuck => (tr, true, k)
  end.

(** one step of the process: client number [i] makes its next call *)
Definition step (E : env) (p : process) (i : nat) : process :=
  if p_alive p then
    match nth_error (p_clients p) i with
    | Some k => let '(tr, go, k') := turn E (p_trace p) k in mkprocess tr go (upd (p_clients p) i k')
    | None => p
    end
  else p.
Definition run (E : env) (cs : list client) (schedule : list nat) : process := fold_left (step E) schedule (mkprocess [] true cs).
