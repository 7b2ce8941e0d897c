(** Vocabulary for statements about the stored levels of a session. *)
Require Import ZArith List Bool String Ascii.
Require Import Verif.Base Verif.Spec Verif.Dim Verif.Limits Verif.World Verif.Stream Verif.Api Verif.SettingsSpec Verif.SessionSpec Verif.PyramidSpec.
Import ListNotations.
Open Scope string_scope.
Open Scope list_scope.
Open Scope Z_scope.

(** what a reader sees after the session *)
Definition store (u : use) (groups : list (list (list Z))) : string -> option (list Z) :=
  stored (u_env u) (w_trace (after u groups)) (u_bk u).

(** [i] is the number of a level of the store: 0, and with multiscale 1 .. N *)
Definition is_level (u : use) (i : nat) : Prop :=
  i = 0%nat \/ (st_multi (u_set u) = true /\ exists N, last_level (u_dims u) N /\ (i <= N)%nat).

(** the dimensions of level [i], its rows and columns, the extents of its middle dimensions *)
Definition lv_dims (u : use) (i : nat) : list dim := map (at_level i) (u_dims u).
Definition lv_inner (u : use) (i : nat) : list dim := map (at_level i) (u_mids u ++ [u_dy u; u_dx u]).
Definition lv_H (u : use) (i : nat) : Z := d_array (at_level i (u_dy u)).
Definition lv_W (u : use) (i : nat) : Z := d_array (at_level i (u_dx u)).
Definition lv_A (u : use) (i : nat) : list Z := map d_array (map (at_level i) (u_mids u)).
(** frames between two flushes; frames in a whole shard *)
Definition lv_period (u : use) (i : nat) : Z := d_chunk (at_level i (u_d0 u)) * prodZ (lv_A u i).
Definition lv_shard_period (u : use) (i : nat) : Z := lv_period u i * d_shard (at_level i (u_d0 u)).

(** [G] gives the frames of every level: level 0 holds what was appended, level [i] one frame for each 2^i,
    of the size the level expects; for 8-bit images each level is the mean of the one before *)
Record level_frames (u : use) (F : list (list Z)) (G : nat -> list (list Z)) : Prop := {
  lf_0 : G 0%nat = F;
  lf_n : forall i, zlen (G i) = zlen F / 2 ^ Z.of_nat i;
  lf_size : forall i, is_level u i -> Forall (fun f => zlen f = lv_H u i * lv_W u i * u_bpp u) (G i);
  lf_next : st_dtype (u_set u) = dt_uint8 -> Forall (Forall (fun b => 0 <= b < 256)) F ->
            forall i, is_level u (S i) -> next_level (lv_W u i) (lv_H u i) (G i) (G (S i)) }.

(** Level [i] of a v2 store holds the frames [G]: every chunk of the grid that contains frames is stored, and the
    stored bytes are the compressor's output for the chunk, and the chunk the reader decodes is right in every byte. *)
Definition level_v2 (u : use) (groups : list (list (list Z))) (i : nat) (G : list (list Z)) : Prop :=
  forall q cc, 0 <= q -> q * lv_period u i < zlen G -> in_bounds (map nch (lv_inner u i)) cc ->
    exists raw,
      store u groups (path_of_coords (u_root u ++ "/" ++ dec (Z.of_nat i)) (q :: cc)) = Some raw /\
      raw = u_enc u (u_dec u raw) /\
      chunk_holds (u_bpp u) (lv_A u i) (lv_H u i) (lv_W u i) G (map d_chunk (lv_dims u i)) (q :: cc) (u_dec u raw).

(** the shards of level [i] are finished: the last one is full, or on a file system and not left at the end of
    a chunk *)
Definition finished (u : use) (i : nat) (n : Z) : Prop :=
  n mod lv_shard_period u i = 0 \/ (u_bk u = None /\ n mod lv_period u i <> 0).

(** Level [i] of a v3 store: every shard of the grid that is full, and every shard that contains frames if the last one is finished, is stored
    with a well-formed index; a chunk of the grid is found at its place with append coordinate 0, and there is the last chunk
    [row] written to the shard. *)
Definition level_v3 (u : use) (groups : list (list (list Z))) (i : nat) (G : list (list Z)) : Prop :=
  let shards := map d_shard (lv_inner u i) in
  let N := prodZ (map d_shard (lv_dims u i)) in
  let S0 := d_shard (at_level i (u_d0 u)) in
  forall s sc, (s + 1) * lv_shard_period u i <= zlen G \/ finished u i (zlen G) -> 0 <= s -> s * lv_shard_period u i < zlen G -> in_bounds (map nsh (lv_inner u i)) sc ->
    exists file,
      store u groups (shard_key (u_root u ++ "/data/root/" ++ dec (Z.of_nat i)) (s :: sc)) = Some file /\
      index_ok file N /\
      forall cc, in_bounds (map nch (lv_inner u i)) cc -> zip_with Z.div cc shards = sc ->
        let row := s * S0 + Z.min S0 (ceil_div (zlen G) (lv_period u i) - s * S0) - 1 in
        exists raw,
          shard_chunk file N (ravel (map d_shard (lv_dims u i)) (0 :: zip_with Z.modulo cc shards)) = Some raw /\
          raw = u_enc u (u_dec u raw) /\
          chunk_holds (u_bpp u) (lv_A u i) (lv_H u i) (lv_W u i) G (map d_chunk (lv_dims u i)) (row :: cc) (u_dec u raw).
