(** What C50 means: how many descriptors a history of file events leaves open. *)
Require Import ZArith List Bool String.
Require Import Verif.Base Verif.World Verif.Stream Verif.Spec.
Import ListNotations.
Open Scope Z_scope.
(** how often the file [p] was opened, and closed, in a history of events *)
Definition opened (p : string) (tr : list event) : Z := zlen (filter (fun e => match e with EOpen q => String.eqb q p | _ => false end) tr).
Definition closed (p : string) (tr : list event) : Z := zlen (filter (fun e => match e with EClose q => String.eqb q p | _ => false end) tr).
(** the number of files (all paths together) that a history leaves open *)
Definition left_open (tr : list event) : Z :=
  zlen (filter (fun e => match e with EOpen _ => true | _ => false end) tr) - zlen (filter (fun e => match e with EClose _ => true | _ => false end) tr).
(** the number of files along a dimension: one per chunk in version 2, one per shard in version 3 *)
Definition files_along (version : Z) (d : udim) : Z :=
  if version =? 3 then ceil_div (ceil_div (u_array d) (u_chunk d)) (u_shard d) else ceil_div (u_array d) (u_chunk d).
(** the number of files of the array that differ in the indices of the dimensions [ds] only *)
Definition files_of (version : Z) (ds : list udim) : Z := fold_right (fun d n => files_along version d * n) 1 ds.
