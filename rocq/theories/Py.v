(** Model of the Python binding (python/acquire-zarr-py.cpp). Not modelled: pybind11 itself, the reference counts, conversion of Python values. *)
Require Import ZArith List Bool String Ascii.
Require Import Verif.Base Verif.Dim Verif.World Verif.Stream Verif.Api.
Import ListNotations.
Open Scope string_scope.
Open Scope list_scope.
Open Scope Z_scope.

(** ** Arrays *)
(** py::buffer_info (pybind11/buffer_info.h): address of element 0, bytes per element, extents, strides in bytes *)
Record ndarray : Type := mknd { a_ptr : Z; a_item : Z; a_shape : list Z; a_strides : list Z }.
Definition a_size (a : ndarray) : Z := fold_right Z.mul 1 (a_shape a).
(** the memory: a byte for each address, None = not readable *)
Definition mem := Z -> option Z.
Definition read_mem (m : mem) (p n : Z) : option (list Z) :=
  fold_right (fun i acc => match m (p + i), acc with Some b, Some l => Some (b :: l) | _, _ => None end) (Some []) (zseq n).

(** PyZarrStream::append (acquire-zarr-py.cpp:371-392): itemsize * size bytes from the address of element 0; the strides and the type of the
    array are not looked at. Reading memory that is not there is undefined behaviour. *)
Definition py_append (E : env) (m : mem) (a : ndarray) : M TW unit :=
  match read_mem m (a_ptr a) (a_item a * a_size a) with
  | None => ubM
  | Some bytes =>
      r <- api_append E (Some bytes) true ;;
      if fst r =? st_success then ret tt else throwM ("Failed to append data to Zarr stream: " ++ status_message (fst r))%string
  end.

(** ** S3Settings.__repr__ (acquire-zarr-py.cpp:138-147) *)
Record py_s3 : Type := mkpys3 { p_endpoint : string; p_bucket : string; p_key : string; p_secret : string }.
Definition s3_repr (s : py_s3) : string :=
  (let shown := if Nat.ltb (String.length (p_secret s)) 6 then p_secret s else String.substring 0 5 (p_secret s) ++ "..." in
   "S3Settings(endpoint='" ++ p_endpoint s ++ "', bucket_name='" ++ p_bucket s ++ "', access_key_id='" ++ p_key s ++ "', secret_access_key='" ++ shown ++ "')")%string.

(** ** PyZarrStream::PyZarrStream (acquire-zarr-py.cpp:284-369): the settings of the C interface *)
Record py_dim : Type := mkpydim { q_name : string; q_type : Z; q_array : Z; q_chunk : Z; q_shard : Z }.
Record py_comp : Type := mkpycomp { q_compressor : Z; q_codec : Z; q_level : Z; q_shuffle : Z }.
Record py_settings : Type := mkpyset {
  q_path : string; q_meta : option string; q_s3 : option py_s3; q_comp : option py_comp; q_dims : list py_dim;
  q_multi : bool; q_dtype : Z; q_version : Z }.
(** std::string::c_str read by strlen: up to the first NUL *)
Fixpoint c_str (s : string) : string :=
  match s with
  | EmptyString => EmptyString
  | String c r => if Ascii.eqb c Ascii.zero then EmptyString else String c (c_str r)
  end.
Definition py_create_settings (p : py_settings) : settings :=
  mksettings (Some (c_str (q_path p))) (option_map c_str (q_meta p))
    (option_map (fun s => mks3set (Some (c_str (p_endpoint s))) (Some (c_str (p_bucket s))) (Some (c_str (p_key s))) (Some (c_str (p_secret s)))) (q_s3 p))
    (option_map (fun c => mkcompset (q_compressor c) (q_codec c) (q_level c) (q_shuffle c)) (q_comp p))
    (match q_dims p with [] => None | l => Some (map (fun d => mkudim (Some (c_str (q_name d))) (q_type d) (q_array d) (q_chunk d) (q_shard d)) l) end)
    (q_multi p) (q_dtype p) (q_version p).
(** the constructor: throws if ZarrStream_create returns null *)
Definition py_create (E : env) (p : py_settings) : M world stream :=
  o <- api_create E (Some (py_create_settings p)) ;;
  match o with Some s => ret s | None => throwM "Failed to create Zarr stream" end.

(** ** The life of a Python stream *)
(** a sequence of append calls; an exception ends it *)
Fixpoint py_appends (E : env) (calls : list (mem * ndarray)) : M TW unit :=
  match calls with [] => ret tt | (m, a) :: l => py_append E m a ;;; py_appends E l end.
(** Stream made, arrays appended, stream deleted: ZarrStreamDeleter (acquire-zarr-py.cpp:13-18) calls ZarrStream_destroy, whether or not an append raised;
    nothing is reported to Python. An exception that leaves ZarrStream_destroy leaves a destructor: std::terminate, shown as UB. *)
Definition py_session (E : env) (p : py_settings) (calls : list (mem * ndarray)) : M world unit :=
  s <- py_create E p ;;
  fun w =>
    let '(sw, r) := py_appends E calls (s, w) in
    match r with
    | UB => (snd sw, UB)
    | Hang => (snd sw, Hang)
    | _ => let '(sw', d) := api_destroy E sw in
           (snd sw', match d with Ok _ => r | Hang => Hang | _ => UB end)
    end.

(** ** StreamSettings.__repr__ (acquire-zarr-py.cpp:609-638) *)
(** compressor_to_str, compression_codec_to_str, dimension_type_to_str, data_type_to_str (acquire-zarr-py.cpp:20-92) *)
Definition name_at (l : list string) (i : Z) : string := if i <? 0 then "UNKNOWN" else nth (Z.to_nat i) l "UNKNOWN".
Definition compressor_str (c : Z) : string := name_at ["NONE"; "BLOSC1"] c.
Definition codec_str (c : Z) : string := name_at ["NONE"; "BLOSC_LZ4"; "BLOSC_ZSTD"] c.
Definition dim_type_str (t : Z) : string := name_at ["SPACE"; "CHANNEL"; "TIME"; "OTHER"] t.
Definition dtype_str (t : Z) : string :=
  name_at ["UINT8"; "UINT16"; "UINT32"; "UINT64"; "INT8"; "INT16"; "INT32"; "INT64"; "FLOAT32"; "FLOAT64"] t.
(** PyZarrCompressionSettings::repr (acquire-zarr-py.cpp:175-183), PyZarrDimensionProperties::repr (acquire-zarr-py.cpp:214-223) *)
Definition comp_repr (c : py_comp) : string :=
  ("CompressionSettings(compressor=Compressor." ++ compressor_str (q_compressor c) ++ ", codec=CompressionCodec." ++ codec_str (q_codec c)
   ++ ", level=" ++ dec (q_level c) ++ ", shuffle=" ++ dec (q_shuffle c) ++ ")")%string.
Definition dim_repr (d : py_dim) : string :=
  ("Dimension(name='" ++ q_name d ++ "', kind=DimensionType." ++ dim_type_str (q_type d) ++ ", array_size_px=" ++ dec (q_array d)
   ++ ", chunk_size_px=" ++ dec (q_chunk d) ++ ", shard_size_chunks=" ++ dec (q_shard d) ++ ")")%string.
Definition settings_repr (p : py_settings) : string :=
  ("StreamSettings(store_path='" ++ q_path p ++ "'"
   ++ match q_meta p with Some m => ", custom_metadata='" ++ m ++ "'" | None => "" end
   ++ match q_s3 p with Some s => ", s3=" ++ s3_repr s | None => "" end
   ++ match q_comp p with Some c => ", compression=" ++ comp_repr c | None => "" end
   ++ ", dimensions=[" ++ fold_right (fun d r => dim_repr d ++ ", " ++ r) "" (q_dims p)
   ++ "], multiscale=" ++ (if q_multi p then "True" else "False") ++ ", data_type=DataType." ++ dtype_str (q_dtype p)
   ++ ", version=ZarrVersion." ++ (if (q_version p =? 2)%Z then "V2" else "V3") ++ ")")%string.
