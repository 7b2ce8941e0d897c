(** What the documents of a store say, in terms of the settings. Independent of how the code builds them. *)
Require Import ZArith List Bool String Ascii.
Require Import Verif.Base Verif.Spec Verif.Dim Verif.World Verif.Stream Verif.Api Verif.SettingsSpec Verif.SessionSpec Verif.PyramidSpec Verif.StoreSpec Verif.JsonSpec.
Import ListNotations.
Open Scope string_scope.
Open Scope list_scope.
Open Scope Z_scope.

(** key of the array document of level [i] *)
Definition array_key (u : use) (i : nat) : string :=
  if st_version (u_set u) =? 2 then (dec (Z.of_nat i) ++ "/.zarray")%string
  else ("meta/root/" ++ dec (Z.of_nat i) ++ ".array.json")%string.

(** Level [i] got [n] frames and has an array document when the stream is gone: any frame (v2), some whole shard or a part of a
    chunk (v3: C13_refuted shows that other numbers of frames leave none) *)
Definition has_document (u : use) (i : nat) (n : Z) : Prop :=
  if st_version (u_set u) =? 2 then 0 < n
  else n mod lv_period u i <> 0 \/ (n mod lv_period u i = 0 /\ lv_shard_period u i <= n).
(** the number of frames it declares *)
Definition declared (u : use) (i : nat) (n : Z) : Z :=
  if st_version (u_set u) =? 2 then n
  else if n mod lv_period u i =? 0 then n / lv_shard_period u i * lv_shard_period u i else n.

(** level [i] of the store has an array document, it is one JSON text without repeated keys, and [P] holds of it *)
Definition array_document (u : use) (groups : list (list (list Z))) (i : nat) (P : jv -> Prop) : Prop :=
  exists c v, key u groups (array_key u i) = Some c /\ json_of c = Some v /\ keys_unique v /\ P v.
(** the same for the document [k] *)
Definition document (u : use) (groups : list (list (list Z))) (k : string) (P : jv -> Prop) : Prop :=
  exists c v, key u groups k = Some c /\ json_of c = Some v /\ keys_unique v /\ P v.

(** ** Data types (zarr.types.h): uint8 .. uint64, int8 .. int64, float32, float64 *)
Inductive kind : Type := unsigned | signed | floating.
Definition kind_of (dt : Z) : kind := if dt <? 4 then unsigned else if dt <? 8 then signed else floating.
(** numpy's array-protocol name, little-endian; Zarr v3's name *)
Definition v2_name (k : kind) (bytes : Z) : string := ("<" ++ match k with unsigned => "u" | signed => "i" | floating => "f" end ++ dec bytes)%string.
Definition v3_name (k : kind) (bytes : Z) : string := (match k with unsigned => "uint" | signed => "int" | floating => "float" end ++ dec (8 * bytes))%string.

(** ** Compression: the codec's Blosc name *)
Definition codec_text (codec : Z) : option string := if codec =? 1 then Some "lz4" else if codec =? 2 then Some "zstd" else None.

(** the compressor entry of an array document for the settings [c] *)
Definition says_blosc (version : Z) (c : compset) (v : jv) : Prop :=
  exists name o,
    codec_text (cs_codec c) = Some name /\ field "compressor" v = Some o /\
    let conf := if version =? 2 then Some o else field "configuration" o in
    (if version =? 2 then field "id" o = Some (VStr "blosc")
     else field "codec" o = Some (VStr "https://purl.org/zarr/spec/codec/blosc/1.0")) /\
    exists p, conf = Some p /\ field "cname" p = Some (VStr name) /\
      field "clevel" p = Some (vint (cs_level c)) /\ field "shuffle" p = Some (vint (cs_shuffle c)).

(** ** The whole array document: extents [shape], chunk and shard shapes, type, fill value 0, C order *)
Definition says_array (version : Z) (shape chunks shards : list Z) (name : string) (v : jv) : Prop :=
  field "shape" v = Some (vints shape) /\ field "fill_value" v = Some (vint 0) /\
  if version =? 2 then
    field "zarr_format" v = Some (vint 2) /\ field "chunks" v = Some (vints chunks) /\ field "dtype" v = Some (VStr name) /\
    field "order" v = Some (VStr "C") /\ field "dimension_separator" v = Some (VStr "/") /\ field "filters" v = Some VNull
  else
    (exists g, field "chunk_grid" v = Some g /\ field "type" g = Some (VStr "regular") /\ field "chunk_shape" g = Some (vints chunks) /\
               field "separator" g = Some (VStr "/")) /\
    field "data_type" v = Some (VStr name) /\ field "chunk_memory_layout" v = Some (VStr "C") /\
    exists t q, field "storage_transformers" v = Some (VArr [t]) /\ field "type" t = Some (VStr "indexed") /\
      field "extension" t = Some (VStr "https://purl.org/zarr/spec/storage_transformers/sharding/1.0") /\
      field "configuration" t = Some q /\ field "chunks_per_shard" q = Some (vints shards).

(** ** The multiscale document (OME-NGFF 0.4) *)
(** one entry of "datasets": path of the level and its scale factors, doubles without fraction *)
Definition dataset (i : nat) (scale : list Z) : jv :=
  VObj [("coordinateTransformations", VArr [VObj [("scale", VArr (map (fun z => VNum z "0") scale)); ("type", VStr "scale")]]);
        ("path", VStr (dec (Z.of_nat i)))].
(** the entry of "axes" of a dimension: its name and type; rows and columns in micrometers *)
Definition says_axis (d : dim) (is_yx : bool) (v : jv) : Prop :=
  field "name" v = Some (VStr (d_name d)) /\
  field "type" v = Some (VStr (if d_type d =? ty_space then "space" else if d_type d =? ty_channel then "channel"
                               else if d_type d =? ty_time then "time" else "other")) /\
  field "unit" v = if is_yx then Some (VStr "micrometer") else None.
(** [scale i] gives the factors of level i, for the levels 0 .. N *)
Definition says_multiscales (u : use) (N : nat) (scale : nat -> list Z) (v : jv) : Prop :=
  exists m axes,
    v = VArr [m] /\ field "version" m = Some (VStr "0.4") /\
    field "datasets" m = Some (VArr (map (fun i => dataset i (scale i)) (seq 0 (S N)))) /\
    field "axes" m = Some (VArr axes) /\
    Forall2 (fun d a => says_axis (fst d) (snd d) a)
      (map (fun d => (d, false)) (u_d0 u :: u_mids u) ++ [(u_dy u, true); (u_dx u, true)]) axes.
