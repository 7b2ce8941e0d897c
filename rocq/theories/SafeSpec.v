(** Vocabulary of C52: what is assumed about the settings and the machine. *)
Require Import ZArith List Bool String.
Require Import Verif.Base Verif.Spec Verif.Dim Verif.Limits Verif.World Verif.Stream Verif.Api Verif.SettingsSpec Verif.SessionSpec.
Import ListNotations.
Open Scope Z_scope.

(** The settings are values of their C types, their strings are there, there are three dimensions or more, and the sizes fit the integer types
    of the code (Limits.v). Whether the values are valid, whether the store can be made, what is on the disk: nothing is said. [frame] is the
    number of bytes of a frame. *)
Record sized (st : settings) (frame : Z) : Prop := {
  sz_typed : typed st;
  sz_strings : strings_present st;
  sz_sizes : exists l d0 mids dy dx bpp, st_dims st = Some l /\ map dim_of l = d0 :: mids ++ [dy; dx] /\
    bytes_of_type (st_dtype st) = Ok bpp /\ frame = d_array dy * d_array dx * bpp /\
    fits bpp d0 mids dy dx /\ (st_version st = 3 -> fits_shards d0 mids dy dx) /\
    (st_multi st = true ->
      (0 <= d_array d0 < 2 ^ 32 - 1 /\ d_array d0 + d_chunk d0 <= 2 ^ 32) /\
      image_fits bpp (d_array dx) (d_array dy) /\ st_dtype st <> dt_int8 /\
      exists d, In d (d0 :: mids ++ [dy; dx]) /\ can_shrink d) }.

(** it can always be found out whether a path exists and what it is; nothing else is assumed of the machine *)
Definition statable (E : env) : Prop := forall k p, e_stat E k p = true.

(** every call gets a whole number of frames, possibly none *)
Definition whole_calls (frame : Z) (calls : list (list Z)) : Prop := Forall (fun d => exists k, zlen d = Z.of_nat k * frame) calls.

(** the caller of append is told that all its bytes were taken, or that something failed *)
Definition answer (d : list Z) (r : Z * option Z) : Prop := r = (st_success, Some (zlen d)) \/ r = (st_internal_error, None).
(** no stream was created, or every append call got an answer and destroy returned *)
Definition answered (calls : list (list Z)) (r : option (list (Z * option Z) * bool)) : Prop :=
  match r with None => True | Some (rs, _) => Forall2 answer calls rs end.
