(** What can be found on a disk after the process has died. *)
Require Import ZArith List Bool String Ascii.
Require Import Verif.Base Verif.World.
Import ListNotations.
Open Scope list_scope.

(** Opening, flushing and closing a file, and removing it, take effect at once; writes to it stay in the buffer of its stream until then.
    (The operating system survives: what has left the buffer is found again.) *)
Definition settles (p : string) (e : event) : Prop :=
  match e with
  | EOpen q | EFlush q | EClose q => q = p
  | ERemoveAll q => under q p = true
  | _ => False
  end.

(** The process dies after the events [tr]. File [p] may then be found with content [c] ([None]: it does not exist): the last writes
    since it was last opened, flushed or closed may be lost. Other files lose their own writes, independently. *)
Definition may_be_found (E : env) (tr : list event) (p : string) (c : option (list Z)) : Prop :=
  exists t1 t2, tr = t1 ++ t2 /\ Forall (fun e => ~ settles p e) t2 /\ file_of E t1 p = c.

(** The same when the oldest of the lost writes may be lost in part: its first [k] bytes arrived. *)
Definition may_be_found_torn (E : env) (tr : list event) (p : string) (c : option (list Z)) : Prop :=
  may_be_found E tr p c \/
  exists t1 t2 off d k, tr = t1 ++ EWrite p off d :: t2 /\ Forall (fun e => ~ settles p e) t2 /\ file_of E (t1 ++ [EWrite p off (firstn k d)]) p = c.

(** The moments at which a process can die: [tr] is what has happened before, and in what would still have happened ([rest]) no
    directory is removed (create removes an old store of the same name before it makes the new one). *)
Definition dies_at (all tr : list event) : Prop :=
  exists rest, all = tr ++ rest /\ forall p, ~ In (ERemoveAll p) rest.

(** The events that concern file [p]. *)
Definition concerns (p : string) (e : event) : bool :=
  match e with
  | EOpen q | EFlush q | EClose q | EWrite q _ _ => String.eqb q p
  | ERemoveAll q => under q p
  | _ => false
  end.

(** The moments at which a process can die while jobs of a pool work on different files. In the order [all] the jobs follow one another;
    at the moment [tr] each file has seen its own events up to some moment of [all] after [before], and the file [doc] has seen
    exactly those up to [before]. *)
Definition dies_in_batch (all : list event) (doc : string) (tr : list event) : Prop :=
  exists before rest, all = before ++ rest /\ (forall p, ~ In (ERemoveAll p) rest) /\
    filter (concerns doc) tr = filter (concerns doc) before /\
    forall p, exists m r, rest = m ++ r /\ filter (concerns p) tr = filter (concerns p) (before ++ m).
