(** Vocabulary of C61. *)
Require Import List Bool.
Require Import Verif.World.

(** how many of the requests number a, a+1, ..., b-1 the server refused *)
Definition refused (E : env) (a b : nat) : nat := List.length (filter (fun k => negb (e_s3 E k)) (seq a (b - a))).
