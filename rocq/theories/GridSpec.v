(** Vocabulary of C09 and C53: which files or objects a store is made of, according to the settings and the number of frames. *)
Require Import ZArith List Bool String.
Require Import Verif.Base Verif.Spec Verif.Dim Verif.Limits Verif.World Verif.Stream Verif.Api Verif.SettingsSpec Verif.SessionSpec Verif.PyramidSpec Verif.StoreSpec Verif.LayoutSpec.
Import ListNotations.
Open Scope Z_scope.

(** [i] is the number of a level: 0, and with multiscale 1 .. N *)
Definition level_of (st : settings) (ds : list dim) (i : nat) : Prop :=
  i = 0%nat \/ (st_multi st = true /\ exists N, last_level ds N /\ (i <= N)%nat).
(** number of chunks (v2) or shards (v3) along a dimension *)
Definition pieces (v3 : bool) (d : dim) : Z := if v3 then nsh d else nch d.
(** number of frames in one row of chunks or shards of level [i] *)
Definition row_frames (v3 : bool) (d0 : dim) (mids : list dim) (i : nat) : Z :=
  d_chunk (at_level i d0) * prodZ (map d_array (map (at_level i) mids)) * (if v3 then d_shard (at_level i d0) else 1).

(** [it] belongs to the store of [st], if level [i] has [n i] frames: chunks and shards lie inside the extents of their level and their row has
    frames; array documents are those of the levels *)
Definition belongs (st : settings) (d0 : dim) (mids : list dim) (dy dx : dim) (n : nat -> Z) (it : item) : Prop :=
  let v3 := st_version st =? 3 in
  let level := level_of st (d0 :: mids ++ [dy; dx]) in
  match it with
  | Piece l q cc => exists i, l = Z.of_nat i /\ level i /\ 0 <= q /\ q * row_frames v3 d0 mids i < n i /\
      in_bounds (map (pieces v3) (map (at_level i) (mids ++ [dy; dx]))) cc
  | ArrayDoc l => exists i, l = Z.of_nat i /\ level i
  | StoreDoc k => In k (store_docs v3)
  end.

(** bytes of all the calls together *)
Definition bytes_given (calls : list (list Z)) : Z := fold_right (fun d n => zlen d + n) 0 calls.
