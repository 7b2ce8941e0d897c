(** The same machine with other answers. *)
Require Import ZArith List Bool String.
Require Import Verif.Base Verif.Dim Verif.World Verif.Stream Verif.Api Verif.SessionSpec Verif.PyramidSpec Verif.StoreSpec.
Import ListNotations.
Open Scope Z_scope.

(** Machine [E], except that S3 request number k is answered if and only if [answer k]. *)
Definition answering (E : env) (answer : nat -> bool) : env :=
  mkenv (e_file0 E) (e_dir0 E) (e_obj0 E) (e_fault E) answer (e_conns E) (e_compress E) (e_writable E) (e_parse E) (e_stat E).

(** Machine [E], except that exactly the requests number k with [bad k] fail: creating, removing and opening files and
    directories, writing to files, and requests to S3 (all are counted together). *)
Definition failing (E : env) (bad : nat -> bool) : env :=
  mkenv (e_file0 E) (e_dir0 E) (e_obj0 E) bad (fun k => negb (bad k)) (e_conns E) (e_compress E) (e_writable E) (e_parse E) (e_stat E).
(** one of the requests number a, ..., b - 1 failed *)
Definition some_failed (bad : nat -> bool) (a b : nat) : Prop := exists k, (a <= k < b)%nat /\ bad k = true.
