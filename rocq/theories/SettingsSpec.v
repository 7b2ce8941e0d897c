(** Independent specification of the documented settings constraints (acquire.zarr.h, zarr.types.h,
    README) and of trimming. Only the settings records are taken from the model. *)
Require Import ZArith List Bool String Ascii.
Require Import Verif.Base Verif.Dim Verif.World Verif.Stream.
Import ListNotations.
Open Scope string_scope.
Open Scope list_scope.
Open Scope Z_scope.

(** space, \t, \n, \v, \f, \r *)
Definition white (c : ascii) : Prop := In (nat_of_ascii c) [32; 9; 10; 11; 12; 13]%nat.
Definition all_white (s : string) : Prop := Forall white (list_ascii_of_string s).

(** [t] is [s] without its leading and trailing white space *)
Definition trimmed_to (s t : string) : Prop :=
  exists l r, s = (l ++ t ++ r)%string /\ all_white l /\ all_white r
    /\ (forall c t', t = String c t' -> ~ white c)
    /\ (forall c t', t = (t' ++ String c "")%string -> ~ white c).

(** a non-null string with a visible character *)
Definition visible (o : option string) : Prop := exists s, o = Some s /\ ~ all_white s.

Definition s3_documented (x : s3set) : Prop :=
  visible (x_endpoint x) /\ visible (x_key x) /\ visible (x_secret x) /\
  exists b t, x_bucket x = Some b /\ trimmed_to b t /\ (3 <= String.length t <= 63)%nat.

(** the parent directory exists and is writable *)
Definition path_documented (E : env) (w : world) (p : string) : Prop :=
  (parent_path p = "" \/ dir_of E (w_trace w) (parent_path p) = true) /\ e_writable E (parent_path p) = true.

(** compressor 0 = none, 1 = Blosc; codec 0 = none, 1 = LZ4, 2 = Zstd *)
Definition compression_documented (c : compset) : Prop :=
  (cs_compressor c = 0 \/ cs_compressor c = 1) /\ 0 <= cs_codec c <= 2 /\
  (cs_compressor c = 1 -> cs_codec c <> 0) /\ 0 <= cs_level c <= 9 /\ 0 <= cs_shuffle c <= 2.

Definition dimension_documented (version : Z) (append : Prop) (d : udim) : Prop :=
  visible (u_name d) /\ 0 <= u_type d <= 3 /\ (append \/ u_array d <> 0) /\ u_chunk d <> 0 /\
  (version = 3 -> u_shard d <> 0).

Definition documented (E : env) (w : world) (s : settings) : Prop :=
  (st_version s = 2 \/ st_version s = 3) /\
  (exists p, st_path s = Some p /\ p <> "" /\
     match st_s3 s with Some x => s3_documented x | None => path_documented E w p end) /\
  0 <= st_dtype s <= 9 /\
  (forall c, st_comp s = Some c -> compression_documented c) /\
  (forall m, st_meta s = Some m -> m = "" \/ exists t, e_parse E m = Some t) /\
  exists l init y x, st_dims s = Some l /\ l = init ++ [y; x] /\ init <> [] /\
    u_type y = ty_space /\ u_type x = ty_space /\
    forall i d, nth_error l i = Some d -> dimension_documented (st_version s) (i = O) d.

(** the numbers have the C types of the settings structs (enumerations are unsigned) *)
Definition typed (s : settings) : Prop :=
  0 <= st_version s /\ 0 <= st_dtype s /\
  (forall c, st_comp s = Some c -> 0 <= cs_compressor c /\ 0 <= cs_codec c /\ 0 <= cs_level c /\ 0 <= cs_shuffle c) /\
  (forall l d, st_dims s = Some l -> In d l -> 0 <= u_type d).

(** no null pointer where a string is dereferenced without a check *)
Definition strings_present (s : settings) : Prop :=
  (forall x, st_s3 s = Some x -> x_endpoint x <> None /\ x_key x <> None /\ x_secret x <> None /\ x_bucket x <> None) /\
  (forall l d, st_dims s = Some l -> In d l -> u_name d <> None).
