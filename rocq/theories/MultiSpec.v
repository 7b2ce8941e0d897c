(** What C58 means. *)
Require Import ZArith List Bool String.
Require Import Verif.Base Verif.World Verif.Stream Verif.Api Verif.SettingsSpec Verif.FrameSpec Verif.Multi.
Import ListNotations.
Open Scope string_scope. Open Scope list_scope.

(** two stores that have nothing in common: different media or buckets, or neither root is the other one or inside it *)
Definition apart (b1 : option string) (r1 : string) (b2 : option string) (r2 : string) : Prop :=
  b1 <> b2 \/ outside r1 r2 /\ outside r2 r1.
(** A path of the filesystem given as it will be used: no blanks around it, not a "file:" path; and the directory it lies in is there when the
    process starts. *)
Definition settled (E : env) (st : settings) : Prop :=
  st_s3 st = None -> forall p, st_path st = Some p ->
    trimmed_to p p /\ String.prefix "file:" p = false /\ (parent_path p = "" \/ e_dir0 E (parent_path p) = true).
(** every client's store is apart from every other client's *)
Definition separate (cs : list client) : Prop :=
  forall i j k1 k2 b1 r1 b2 r2, i <> j -> nth_error cs i = Some k1 -> nth_error cs j = Some k2 ->
    store_at (k_set k1) b1 r1 -> store_at (k_set k2) b2 r2 -> apart b1 r1 b2 r2.
(** the clients at the start *)
Definition fresh (k : client) : Prop := exists st a calls, k = start st a calls.

(** the part of what happened that concerns the store at [root] *)
Definition in_storeb (bucket : option string) (root : string) (e : event) : bool :=
  match e with
  | EMkdir p | ERemoveAll p => match bucket with None => under root p | _ => false end
  | EOpen p | EWrite p _ _ | EFlush p | EClose p => match bucket with None => under root p && negb (String.eqb p root) | _ => false end
  | EPut b k _ | EMpCreate b k _ | EMpPart b k _ _ _ | EMpComplete b k _ _ =>
      match bucket with Some b' => String.eqb b b' && (under root k && negb (String.eqb k root)) | None => false end
  end.
(** only the turns of client [i] *)
Definition only (i : nat) (schedule : list nat) : list nat := filter (Nat.eqb i) schedule.
