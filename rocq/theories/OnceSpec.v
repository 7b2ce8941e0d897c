(** Vocabulary of C59: how often an object is uploaded. *)
Require Import ZArith List Bool String.
Require Import Verif.Base Verif.Spec Verif.Dim Verif.Limits Verif.World Verif.Stream.
Import ListNotations.
Open Scope Z_scope.

(** [e] makes object [k] of bucket [b] visible: a simple upload, or the completion of a multipart upload *)
Definition upload_of (b k : string) (e : event) : bool :=
  match e with
  | EPut b' k' _ | EMpComplete b' k' _ _ => String.eqb b b' && String.eqb k k'
  | _ => false
  end.
Definition uploads (b k : string) (tr : list event) : Z := zlen (filter (upload_of b k) tr).

(** a frame of a stream with these settings has [frame] bytes *)
Definition frame_has (st : settings) (frame : Z) : Prop :=
  exists l d0 mids dy dx bpp, st_dims st = Some l /\ map dim_of l = d0 :: mids ++ [dy; dx] /\ bytes_of_type (st_dtype st) = Ok bpp /\
    frame = bpp * (d_array dy * d_array dx) /\ 0 <= d_array dy /\ 0 <= d_array dx /\ 0 < frame < 2 ^ 64.
