(** A reader of Zarr stores that is told where the store is and which version of the format it has, and nothing else: the levels, extents, chunk and
    shard shapes, data type and compressor come from the documents in the store. It refuses (None) what the formats forbid and what it does not
    support. Independent of the model. [store k] is the content of the file or object [k]; [unblosc] decompresses a Blosc buffer. *)
Require Import ZArith List Bool String Ascii.
Require Import Verif.Base Verif.Spec Verif.JsonSpec.
Import ListNotations.
Open Scope string_scope.
Open Scope list_scope.
Open Scope Z_scope.

Inductive number_kind : Type := Unsigned | Signed | Floating.
Record array_info : Type := mkinfo {
  ai_shape : list Z; ai_chunks : list Z;
  ai_shards : option (list Z);  (* chunks per shard; None: not sharded *)
  ai_kind : number_kind; ai_bytes : Z;
  ai_blosc : bool }.

(** ** Pieces of documents *)
Definition document_at (store : string -> option (list Z)) (k : string) : option jv :=
  match store k with Some c => json_of c | None => None end.
Fixpoint ints_in (l : list jv) : option (list Z) :=
  match l with
  | [] => Some []
  | VNum z "" :: l' => match ints_in l' with Some r => Some (z :: r) | None => None end
  | _ => None
  end.
Definition int_list (v : option jv) : option (list Z) := match v with Some (VArr l) => ints_in l | _ => None end.
Definition is_int (v : option jv) (z : Z) : bool := match v with Some (VNum y "") => y =? z | _ => false end.
Definition is_text (v : option jv) (s : string) : bool := match v with Some (VStr t) => String.eqb t s | _ => false end.
Definition is_null (v : option jv) : bool := match v with Some VNull => true | _ => false end.
Definition text_of (v : option jv) : option string := match v with Some (VStr s) => Some s | _ => None end.
Definition opt_field (k : string) (v : option jv) : option jv := match v with Some v => field k v | None => None end.

Definition types_v2 : list (string * (number_kind * Z)) :=
  [("<u1", (Unsigned, 1)); ("<u2", (Unsigned, 2)); ("<u4", (Unsigned, 4)); ("<u8", (Unsigned, 8));
   ("<i1", (Signed, 1)); ("<i2", (Signed, 2)); ("<i4", (Signed, 4)); ("<i8", (Signed, 8)); ("<f4", (Floating, 4)); ("<f8", (Floating, 8))].
Definition types_v3 : list (string * (number_kind * Z)) :=
  [("uint8", (Unsigned, 1)); ("uint16", (Unsigned, 2)); ("uint32", (Unsigned, 4)); ("uint64", (Unsigned, 8));
   ("int8", (Signed, 1)); ("int16", (Signed, 2)); ("int32", (Signed, 4)); ("int64", (Signed, 8)); ("float32", (Floating, 4)); ("float64", (Floating, 8))].
Fixpoint find_type (l : list (string * (number_kind * Z))) (s : string) : option (number_kind * Z) :=
  match l with [] => None | (k, x) :: l' => if String.eqb k s then Some x else find_type l' s end.
Definition type_of (l : list (string * (number_kind * Z))) (v : option jv) : option (number_kind * Z) :=
  match text_of v with Some s => find_type l s | None => None end.

(** the codecs of Blosc, its levels and its shuffle modes *)
Definition blosc_codec (v : option jv) : bool :=
  existsb (is_text (opt_field "cname" v)) ["blosclz"; "lz4"; "lz4hc"; "zlib"; "zstd"] &&
  existsb (is_int (opt_field "clevel" v)) [0; 1; 2; 3; 4; 5; 6; 7; 8; 9] && existsb (is_int (opt_field "shuffle" v)) [0; 1; 2].
(** Some true: Blosc; Some false: not compressed *)
Definition compressor_v2 (v : option jv) : option bool :=
  if is_null v then Some false else if is_text (opt_field "id" v) "blosc" && blosc_codec v then Some true else None.
Definition compressor_v3 (v : option jv) : option bool :=
  if is_null v then Some false
  else if is_text (opt_field "codec" v) "https://purl.org/zarr/spec/codec/blosc/1.0" && blosc_codec (opt_field "configuration" v) then Some true else None.

(** ** Array documents *)
Definition array_v2 (v : jv) : option array_info :=
  if is_int (field "zarr_format" v) 2 && is_text (field "order" v) "C" && is_text (field "dimension_separator" v) "/" &&
     is_null (field "filters" v) && is_int (field "fill_value" v) 0 then
    match int_list (field "shape" v), int_list (field "chunks" v), type_of types_v2 (field "dtype" v), compressor_v2 (field "compressor" v) with
    | Some sh, Some ch, Some (k, b), Some z => if Nat.eqb (List.length sh) (List.length ch) then Some (mkinfo sh ch None k b z) else None
    | _, _, _, _ => None
    end
  else None.
Definition array_v3 (v : jv) : option array_info :=
  let g := field "chunk_grid" v in
  if is_text (opt_field "type" g) "regular" && is_text (opt_field "separator" g) "/" && is_text (field "chunk_memory_layout" v) "C" && is_int (field "fill_value" v) 0 then
    match field "storage_transformers" v with
    | Some (VArr [t]) =>
        if is_text (field "type" t) "indexed" && is_text (field "extension" t) "https://purl.org/zarr/spec/storage_transformers/sharding/1.0" then
          match int_list (field "shape" v), int_list (opt_field "chunk_shape" g), int_list (opt_field "chunks_per_shard" (field "configuration" t)),
                type_of types_v3 (field "data_type" v), compressor_v3 (field "compressor" v) with
          | Some sh, Some ch, Some sd, Some (k, b), Some z =>
              if Nat.eqb (List.length sh) (List.length ch) && Nat.eqb (List.length sh) (List.length sd) then Some (mkinfo sh ch (Some sd) k b z) else None
          | _, _, _, _, _ => None
          end
        else None
    | _ => None
    end
  else None.

(** ** The store *)
(** the attributes of the root group *)
Definition group_attributes (version : Z) (store : string -> option (list Z)) (root : string) : option jv :=
  if version =? 2 then
    if is_int (opt_field "zarr_format" (document_at store (root ++ "/.zgroup")))%string 2 then document_at store (root ++ "/.zattrs")%string else None
  else
    let z := document_at store (root ++ "/zarr.json")%string in
    if is_text (opt_field "zarr_format" z) "https://purl.org/zarr/spec/protocol/core/3.0" && is_text (opt_field "metadata_key_suffix" z) ".json"
    then opt_field "attributes" (document_at store (root ++ "/meta/root.group.json")%string) else None.
(** the paths of the levels in the OME-NGFF metadata *)
Fixpoint paths_in (l : list jv) : option (list string) :=
  match l with
  | [] => Some []
  | v :: l' => match text_of (field "path" v), paths_in l' with Some p, Some r => Some (p :: r) | _, _ => None end
  end.
Definition level_paths (version : Z) (store : string -> option (list Z)) (root : string) : option (list string) :=
  match opt_field "multiscales" (group_attributes version store root) with
  | Some (VArr (m :: _)) => match field "datasets" m with Some (VArr l) => paths_in l | _ => None end
  | _ => None
  end.
(** the array [path] of the root group *)
Definition open_array (version : Z) (store : string -> option (list Z)) (root path : string) : option array_info :=
  if version =? 2 then
    match document_at store (root ++ "/" ++ path ++ "/.zarray")%string with Some v => array_v2 v | None => None end
  else
    match document_at store (root ++ "/meta/root/" ++ path ++ ".array.json")%string with Some v => array_v3 v | None => None end.

(** the bytes of the element [idx] of the array [path]; None if there is no such element *)
Definition inside (shape idx : list Z) : bool :=
  Nat.eqb (List.length idx) (List.length shape) && forallb (fun '(i, n) => (0 <=? i) && (i <? n)) (combine idx shape).
Definition element (store : string -> option (list Z)) (unblosc : list Z -> list Z) (root path : string) (a : array_info) (idx : list Z) : option (list Z) :=
  if inside (ai_shape a) idx then
    let decode := if ai_blosc a then unblosc else fun raw => raw in
    Some (map (fun k => match ai_shards a with
                        | None => read_v2 store decode (root ++ "/" ++ path) (ai_chunks a) (ai_bytes a) idx (Z.of_nat k)
                        | Some s => read_v3 store decode (root ++ "/data/root/" ++ path) (ai_chunks a) s (ai_bytes a) idx (Z.of_nat k)
                        end) (seq 0 (Z.to_nat (ai_bytes a))))
  else None.
