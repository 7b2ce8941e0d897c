(** What C48 means: the places a stream may change. *)
Require Import ZArith List Bool String.
Require Import Verif.Base Verif.World Verif.Stream Verif.SettingsSpec.
Import ListNotations.
(** [e] changes only the store at [root]: on the filesystem (no bucket) the directory [root] and what is below it, on S3 objects of the bucket with a key below [root] *)
Definition in_store (bucket : option string) (root : string) (e : event) : Prop :=
  match e with
  | EMkdir p | ERemoveAll p => bucket = None /\ under root p = true
  | EOpen p | EWrite p _ _ | EFlush p | EClose p => bucket = None /\ under root p = true /\ p <> root
  | EPut b k _ | EMpCreate b k _ | EMpPart b k _ _ _ | EMpComplete b k _ _ => bucket = Some b /\ under root k = true /\ k <> root
  end.
(** where the settings put the store: the trimmed path, in the trimmed bucket if there are S3 settings *)
Definition store_at (st : settings) (bucket : option string) (root : string) : Prop :=
  (exists p, st_path st = Some p /\ trimmed_to p root) /\
  match st_s3 st with
  | None => bucket = None
  | Some x => exists b t, x_bucket x = Some b /\ trimmed_to b t /\ bucket = Some t
  end.
(** [d] is the parent of [root], or the parent of that, ... *)
Definition ancestor (d root : string) : Prop := exists x, root = (d ++ "/" ++ x)%string.
(** [p] is outside the directory [root] *)
Definition outside (root p : string) : Prop := p <> root /\ forall x, p <> (root ++ "/" ++ x)%string.
