(** What C38 means: the things a store is made of, and where each of them is kept. *)
Require Import ZArith List Bool String.
Require Import Verif.Base Verif.Spec Verif.World Verif.SettingsSpec Verif.SessionSpec Verif.PyramidSpec Verif.StoreSpec.
Require Import Verif.Stream.
Import ListNotations.
Open Scope string_scope.
Open Scope list_scope.
Open Scope Z_scope.

(** a chunk (v2) or shard (v3) of a level: its coordinate along the append dimension and the others; the array document
    of a level; a document of the whole store *)
Inductive item : Type :=
| Piece (level append : Z) (coords : list Z)
| ArrayDoc (level : Z)
| StoreDoc (name : string).

(** path (file system) or key (S3), as in the Zarr specifications *)
Definition where_is (v3 : bool) (root : string) (it : item) : string :=
  match it with
  | Piece l q cc => if v3 then shard_key (root ++ "/data/root/" ++ dec l) (q :: cc) else path_of_coords (root ++ "/" ++ dec l) (q :: cc)
  | ArrayDoc l => root ++ "/" ++ (if v3 then "meta/root/" ++ dec l ++ ".array.json" else dec l ++ "/.zarray")
  | StoreDoc k => root ++ "/" ++ k
  end%string.

(** the documents of the store *)
Definition store_docs (v3 : bool) : list string :=
  if v3 then ["zarr.json"; "meta/root.group.json"; "meta/acquire.json"] else [".zattrs"; ".zgroup"; "0/.zattrs"; "acquire.json"].

(** [it] can be in a store whose arrays have [n] dimensions besides the append dimension *)
Definition sensible (v3 : bool) (n : nat) (it : item) : Prop :=
  match it with
  | Piece l q cc => 0 <= l /\ 0 <= q /\ Forall (fun c => 0 <= c) cc /\ List.length cc = n
  | ArrayDoc l => 0 <= l
  | StoreDoc k => In k (store_docs v3)
  end.

(** the level [it] belongs to *)
Definition level_is (it : item) (P : Z -> Prop) : Prop :=
  match it with Piece l _ _ => P l | ArrayDoc l => P l | StoreDoc _ => True end.

(** [e] creates, changes, uploads or closes the file or object [p] *)
Definition handles (bucket : option string) (e : event) (p : string) : Prop :=
  match e with
  | EOpen q | EWrite q _ _ | EFlush q | EClose q => bucket = None /\ q = p
  | EPut b k _ | EMpCreate b k _ | EMpPart b k _ _ _ | EMpComplete b k _ _ => bucket = Some b /\ k = p
  | EMkdir _ | ERemoveAll _ => False
  end.
(** [e] is about files, or about objects *)
Definition about_contents (e : event) : Prop := match e with EMkdir _ | ERemoveAll _ => False | _ => True end.
