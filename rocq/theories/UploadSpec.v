(** Vocabulary of C21 for the S3 store: what can be observed of sinks whose uploads are under way. *)
Require Import ZArith List Bool String.
Require Import Verif.Base Verif.World Verif.Writer.
Import ListNotations.
Open Scope string_scope.
Open Scope Z_scope.

(** A sink of the S3 store and the server, without the upload id (the server chooses it, so it depends on the order of requests): where the object goes,
    the buffered bytes and the counters, and, if an upload is under way, the contents of its parts. *)
Record upload : Type := mkup { u_bucket : string; u_key : string; u_buf : list Z; u_nbuf : Z; u_nflush : Z; u_parts : option (list (list Z)) }.
Definition upload_of (tr : list event) (s : s3sink) : upload :=
  mkup (World.s_bucket s) (s_key s) (s_buf s) (s_nbuf s) (s_nflush s)
       (match s_mp s with Some (id, ns) => Some (map (part_of (rev tr) (World.s_bucket s) (s_key s) id) ns) | None => None end).
Definition seen_sink (tr : list event) (o : option sink) : option (fsink + upload) :=
  match o with Some (SFile f) => Some (inl f) | Some (SS3 s) => Some (inr (upload_of tr s)) | None => None end.

(** Two states of a writer and the world with the same error, the same number of free connections, the same files, directories and objects, the same
    sinks up to upload ids, and the same everything else. *)
Definition same_uploads (E : env) (x y : AW) : Prop :=
  set_sinks (fst x) [] = set_sinks (fst y) [] /\
  map (seen_sink (w_trace (snd x))) (a_sinks (fst x)) = map (seen_sink (w_trace (snd y))) (a_sinks (fst y)) /\
  w_err (snd x) = w_err (snd y) /\ w_conns (snd x) = w_conns (snd y) /\
  (forall b k, object_of E (w_trace (snd x)) b k = object_of E (w_trace (snd y)) b k) /\
  (forall p, file_of E (w_trace (snd x)) p = file_of E (w_trace (snd y)) p /\ dir_of E (w_trace (snd x)) p = dir_of E (w_trace (snd y)) p).

(** A sink in use: it has names, and its upload, if there is one, has an id and parts numbered 1, 2, ... *)
Definition sound_sink (s : s3sink) : Prop :=
  World.s_bucket s <> "" /\ s_key s <> "" /\
  match s_mp s with Some (id, ns) => id > 0 /\ ns = map (fun i => Z.of_nat i + 1) (seq 0 (List.length ns)) | None => True end.
(** The sink takes a write at offset [off]: everything before has been written through it, and its buffer is not full. *)
Definition ready (s : s3sink) (off : Z) : Prop := sound_sink s /\ off = s_nflush s + s_nbuf s /\ 0 <= s_nflush s /\ 0 <= s_nbuf s < 5 * 2 ^ 20 /\ s_nbuf s <= zlen (s_buf s).
