(** Size limits under which the C++ integer types of the code hold the exact values.
    They are hypotheses of theorems about user-chosen sizes, and say nothing about
    how the code computes. *)
Require Import ZArith List Bool String.
Require Import Verif.Base Verif.Spec Verif.Dim.
Import ListNotations.
Open Scope Z_scope.

(** number of chunks / shards along a dimension, exactly *)
Definition nch (d : dim) : Z := ceil_div (d_array d) (d_chunk d).
Definition nsh (d : dim) : Z := ceil_div (nch d) (d_shard d).

(** A dimension other than the append dimension: positive sizes, and array + chunk
    does not exceed 2^32. *)
Definition inner_ok (d : dim) : Prop :=
  0 < d_array d /\ 0 < d_chunk d /\ d_array d + d_chunk d <= 2 ^ 32.

(** [d0] append dimension, [mids] the middle ones, [dy] rows, [dx] columns. *)
Record fits (bpp : Z) (d0 : dim) (mids : list dim) (dy dx : dim) : Prop := {
  fit_bpp    : 0 < bpp <= 8;
  fit_c0     : 0 < d_chunk d0 < 2 ^ 32;
  fit_inner  : Forall inner_ok (mids ++ [dy; dx]);
  fit_frame  : d_array dy * d_array dx < 2 ^ 32;
  fit_rows   : d_chunk dy < 2 ^ 31;
  fit_chunks : prodZ (map nch (mids ++ [dy; dx])) < 2 ^ 31;
  fit_bytes  : bpp * prodZ (map d_chunk (d0 :: mids ++ [dy; dx])) < 2 ^ 63;
  fit_period : d_chunk d0 * prodZ (map (fun d => Z.max (d_array d) (d_chunk d)) mids) < 2 ^ 63
}.

(** Additional limits for sharded (v3) arrays. *)
Record fits_shards (d0 : dim) (mids : list dim) (dy dx : dim) : Prop := {
  fit_s0     : 0 < d_shard d0;
  fit_sinner : Forall (fun d => 0 < d_shard d /\ nch d + d_shard d <= 2 ^ 32) (mids ++ [dy; dx]);
  fit_spp    : d_chunk d0 * d_shard d0 < 2 ^ 32;
  fit_speriod: d_chunk d0 * d_shard d0 * prodZ (map d_array mids) < 2 ^ 63;
  fit_cps    : prodZ (map d_shard (d0 :: mids ++ [dy; dx])) < 2 ^ 31
}.

(** The bytes received between two flushes are counted in a 64-bit integer. *)
Definition fits_epoch (bpp : Z) (d0 : dim) (mids : list dim) (dy dx : dim) : Prop :=
  d_chunk d0 * prodZ (map d_array mids) * (d_array dy * d_array dx * bpp) < 2 ^ 64.
