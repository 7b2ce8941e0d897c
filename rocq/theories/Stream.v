(** Model of zarr.stream.cpp and of the string helpers of zarr.common.cpp. *)
Require Import ZArith List Bool String Ascii.
Require Import Verif.Base Verif.Dim Verif.Json Verif.World Verif.Writer.
Import ListNotations.
Open Scope string_scope.
Open Scope list_scope.
Open Scope Z_scope.

(** ** Strings (zarr.common.cpp:7-40) *)

(** std::isspace in the "C" locale. Simplification: isspace(char) with a negative char is
    formally undefined; glibc answers false, and so does this model. *)
Definition isspace (c : ascii) : bool :=
  let n := nat_of_ascii c in Nat.eqb n 32 || (Nat.leb 9 n && Nat.leb n 13).

Fixpoint drop_spaces (l : list ascii) : list ascii :=
  match l with
  | [] => []
  | c :: l' => if isspace c then drop_spaces l' else l
  end.

(** zarr::trim (zarr.common.cpp:7-29) *)
Definition trim (s : string) : string :=
  string_of_list_ascii (rev (drop_spaces (rev (drop_spaces (list_ascii_of_string s))))).

(** zarr::is_empty_string (zarr.common.cpp:31-40); a string_view made from a null pointer
    is undefined behaviour *)
Definition is_empty_string (s : option string) : outcome bool :=
  match s with
  | None => UB
  | Some s => Ok (String.eqb (trim s) "")
  end.

(** ** Settings (include/acquire.zarr.h:22-40, include/zarr.types.h:86-124) *)

(** ZarrS3Settings; None = null pointer *)
Record s3set : Type := mks3set {
  x_endpoint : option string;
  x_bucket : option string;
  x_key : option string;
  x_secret : option string
}.
(** ZarrCompressionSettings *)
Record compset : Type := mkcompset {
  cs_compressor : Z;
  cs_codec : Z;
  cs_level : Z;          (* uint8_t *)
  cs_shuffle : Z         (* uint8_t *)
}.
(** ZarrDimensionProperties *)
Record udim : Type := mkudim {
  u_name : option string;
  u_type : Z;
  u_array : Z;
  u_chunk : Z;
  u_shard : Z
}.
(** ZarrStreamSettings. Simplification: dimension_count is the length of the array that
    [dimensions] points to. *)
Record settings : Type := mksettings {
  st_path : option string;
  st_meta : option string;
  st_s3 : option s3set;
  st_comp : option compset;
  st_dims : option (list udim);
  st_multi : bool;
  st_dtype : Z;
  st_version : Z
}.

(** ** Validation *)

(** validate_s3_settings (zarr.stream.cpp:32-57) *)
Definition validate_s3 (x : s3set) : outcome bool :=
  let? e1 := is_empty_string (x_endpoint x) in
  if e1 then Ok false else
  let? e2 := is_empty_string (x_key x) in
  if e2 then Ok false else
  let? e3 := is_empty_string (x_secret x) in
  if e3 then Ok false else
  match x_bucket x with
  | None => UB
  | Some b =>
      let n := Z.of_nat (String.length (trim b)) in
      Ok (negb ((n <? 3) || (63 <? n)))
  end.

(** validate_filesystem_store_path (zarr.stream.cpp:59-88); [e_writable] of "" is that of the current
    directory. Simplification: parent_path is everything before the last '/'. Its own exists and is_directory are taken to answer: an exception here
    makes the constructor throw, like the answer no, so create returns NULL either way. *)
Definition validate_filesystem (E : env) (w : world) (p : string) : bool :=
  let par := parent_path p in
  parent_ok E (w_trace w) par && e_writable E par.

(** validate_compression_settings (zarr.stream.cpp:90-133); BLOSC_NOSHUFFLE, SHUFFLE, BITSHUFFLE = 0, 1, 2 *)
Definition validate_compression (c : compset) : bool :=
  (cs_compressor c <? 2) && (cs_codec c <? 3)
  && negb (negb (cs_compressor c =? 0) && (cs_codec c =? 0))
  && (cs_level c <=? 9)
  && ((cs_shuffle c =? 0) || (cs_shuffle c =? 1) || (cs_shuffle c =? 2)).

(** validate_custom_metadata (zarr.stream.cpp:135-155) *)
Definition validate_custom (E : env) (m : option string) : bool :=
  match m with
  | None => true
  | Some s => String.eqb s "" || match e_parse E s with Some _ => true | None => false end
  end.

(** validate_dimension (zarr.stream.cpp:157-187) *)
Definition validate_dimension (version : Z) (is_append : bool) (d : udim) : outcome bool :=
  let? e := is_empty_string (u_name d) in
  if e then Ok false
  else Ok ((u_type d <? ty_count)
           && negb (negb is_append && (u_array d =? 0))
           && negb (u_chunk d =? 0)
           && negb ((version =? 3) && (u_shard d =? 0))).

(** the loop of zarr.stream.cpp:262-266 *)
Fixpoint validate_dims (version : Z) (is_append : bool) (l : list udim) : outcome bool :=
  match l with
  | [] => Ok true
  | d :: l' => let? ok := validate_dimension version is_append d in
               if ok then validate_dims version false l' else Ok false
  end.

Definition udim0 : udim := mkudim None 0 0 0 0.

(** validate_settings (zarr.stream.cpp:189-269) *)
Definition validate_settings (E : env) (w : world) (o : option settings) : outcome bool :=
  match o with
  | None => Ok false
  | Some s =>
      if (st_version s <? 2) || (4 <=? st_version s) then Ok false else
      match st_path s with
      | None => Ok false
      | Some p =>
          if String.eqb p "" then Ok false else
          let? ok := match st_s3 s with
                     | Some x => validate_s3 x
                     | None => Ok (validate_filesystem E w p)
                     end in
          if negb ok then Ok false else
          if dt_count <=? st_dtype s then Ok false else
          if negb (match st_comp s with Some c => validate_compression c | None => true end) then Ok false else
          if negb (validate_custom E (st_meta s)) then Ok false else
          match st_dims s with
          | None => Ok false
          | Some l =>
              let n := List.length l in
              if Nat.ltb n 3 then Ok false else
              if negb (u_type (nth (n - 1) l udim0) =? ty_space) then Ok false else
              if negb (u_type (nth (n - 2) l udim0) =? ty_space) then Ok false else
              validate_dims (st_version s) true l
          end
      end
  end.

(** ** The stream object (zarr.stream.hh:26-61) *)
Record stream : Type := mkstream {
  s_v3 : bool;                            (* version_ == 3 *)
  s_root : string;                        (* store_path_ *)
  s_bucket : option string;               (* s3_settings_->bucket_name *)
  s_comp : option blosc;
  s_custom : string;                      (* custom_metadata_ *)
  s_dtype : Z;
  s_dims : list dim;
  s_multi : bool;
  s_fbuf : list Z;                        (* frame_buffer_ *)
  s_foff : Z;                             (* frame_buffer_offset_ *)
  s_writers : list writer;
  s_msinks : list (string * option sink); (* metadata_sinks_ *)
  s_scaled : list (option (list Z));      (* scaled_frames_[i], as pixel values *)
  s_leaked : Z                            (* scaled images allocated and no longer reachable *)
}.

Definition set_fbuf (s : stream) (b : list Z) (o : Z) : stream :=
  mkstream (s_v3 s) (s_root s) (s_bucket s) (s_comp s) (s_custom s) (s_dtype s) (s_dims s) (s_multi s)
           b o (s_writers s) (s_msinks s) (s_scaled s) (s_leaked s).
Definition set_writers (s : stream) (l : list writer) : stream :=
  mkstream (s_v3 s) (s_root s) (s_bucket s) (s_comp s) (s_custom s) (s_dtype s) (s_dims s) (s_multi s)
           (s_fbuf s) (s_foff s) l (s_msinks s) (s_scaled s) (s_leaked s).
Definition set_msinks (s : stream) (l : list (string * option sink)) : stream :=
  mkstream (s_v3 s) (s_root s) (s_bucket s) (s_comp s) (s_custom s) (s_dtype s) (s_dims s) (s_multi s)
           (s_fbuf s) (s_foff s) (s_writers s) l (s_scaled s) (s_leaked s).
Definition set_scaled (s : stream) (l : list (option (list Z))) (n : Z) : stream :=
  mkstream (s_v3 s) (s_root s) (s_bucket s) (s_comp s) (s_custom s) (s_dtype s) (s_dims s) (s_multi s)
           (s_fbuf s) (s_foff s) (s_writers s) (s_msinks s) l n.

Definition TW := (stream * world)%type.
Definition getT : M TW stream := fun tw => (tw, Ok (fst tw)).
Definition modT (f : stream -> stream) : M TW unit := fun tw => ((f (fst tw), snd tw), Ok tt).
Definition onT {A} (m : M world A) : M TW A :=
  fun tw => let '(w', r) := m (snd tw) in ((fst tw, w'), r).

(** writers_[i] *)
Definition on_writer {A} (i : nat) (m : M AW A) : M TW A :=
  fun '(s, w) =>
    match nth_error (s_writers s) i with
    | Some a => let '((a', w'), r) := m (a, w) in ((set_writers s (upd (s_writers s) i a'), w'), r)
    | None => ((s, w), UB)
    end.

(** ** commit_settings_ (zarr.stream.cpp:490-534) *)
Definition dim_of (d : udim) : dim :=
  mkdim (match u_name d with Some n => n | None => "" end) (u_type d) (u_array d) (u_chunk d) (u_shard d).

(** zarr::blosc_codec_to_string (blosc.compression.params.cpp:3-14) *)
Definition codec_name (c : Z) : string :=
  if c =? 2 then "zstd" else if c =? 1 then "lz4" else "unrecognized codec".

(** BloscCompressionParams of zarr.stream.cpp:599-606: compressor is not looked at *)
Definition blosc_of (c : compset) : blosc := mkblosc (codec_name (cs_codec c)) (cs_level c) (cs_shuffle c).

Definition opt_trim (s : option string) : string := match s with Some s => trim s | None => "" end.

Definition commit (st : settings) : outcome stream :=
  let ds := map dim_of (match st_dims st with Some l => l | None => [] end) in
  let? ds := make_dimensions ds in
  Ok (mkstream (st_version st =? 3) (opt_trim (st_path st))
               (option_map (fun x => opt_trim (x_bucket x)) (st_s3 st))
               (option_map blosc_of (st_comp st))
               (match st_meta st with Some m => trim m | None => "{}" end)
               (st_dtype st) ds (st_multi st) [] 0 [] [] [] 0).

(** ** create_store_ (zarr.stream.cpp:542-591); error messages abbreviated *)

(** S3ConnectionPool::S3ConnectionPool (s3.connection.cpp:217-233): the connections that answer *)
Fixpoint open_connections (E : env) (n : nat) : M world unit :=
  match n with
  | O => ret tt
  | S n' =>
      '(ok, _) <- s3_request E ;;
      (if ok then return_connection else ret tt) ;;;
      open_connections E n'
  end.

Definition create_store (E : env) (s : stream) : M world bool :=
  match s_bucket s with
  | Some _ =>
      modM (fun w => mkworld (w_trace w) (w_tick w) 0 (w_err w)) ;;;
      open_connections E (e_conns E) ;;;
      w <- getM ;;
      if Nat.eqb (w_conns w) 0 then set_error "Error creating S3 connection pool: " ;;; ret false
      else
        get_connection ;;;
        '(ok, _) <- s3_request E ;;
        if ok then return_connection ;;; ret true
        else set_error "Failed to connect to S3" ;;; ret false
  | None =>
      ex <- fs_exists E (s_root s) ;;
      ok <- (if ex then fs_remove_all E (s_root s) else ret true) ;;
      if ok then
        c <- fs_create_directories E (s_root s) ;;
        if c then ret true else set_error "Failed to create store path" ;;; ret false
      else set_error "Failed to remove existing store path" ;;; ret false
  end.

(** ** create_writers_ (zarr.stream.cpp:593-650) *)

(** while (do_downsample) of zarr.stream.cpp:632-645. [fuel] bounds the iterations; running
    out of it is the outcome [Hang]. *)
Fixpoint pyramid (fuel : nat) (v3 : bool) (c : config) : outcome (list writer) :=
  match fuel with
  | O => Hang
  | S f =>
      let? r := downsample c in
      let '(c', again) := r in
      let? a := make_writer v3 c' in
      if again then let? l := pyramid f v3 c' in Ok (a :: l) else Ok [a]
  end.

(** more iterations than any terminating run needs (PyramidProofs.v: pyramid_fuel) *)
Definition pyramid_fuel : nat := 40.

Definition base_config (s : stream) : config :=
  mkconfig (s_dims s) (s_dtype s) 0 (s_bucket s) (s_root s) (s_comp s).

Definition create_writers (s : stream) : outcome (list writer) :=
  let? a := make_writer (s_v3 s) (base_config s) in
  if s_multi s then let? l := pyramid pyramid_fuel (s_v3 s) (base_config s) in Ok (a :: l)
  else Ok [a].

(** ** Group metadata *)

(** dimension_type_to_string (zarr.stream.cpp:271-286) *)
Definition type_name (t : Z) : string :=
  if t =? ty_time then "time" else if t =? ty_channel then "channel"
  else if t =? ty_space then "space" else if t =? ty_other then "other" else "(unknown)".

Definition axis_json (is_yx : bool) (d : dim) : json :=
  JObj ([ ("name", JStr (d_name d)); ("type", JStr (type_name (d_type d))) ]
        ++ (if is_yx then [ ("unit", JStr "micrometer") ] else [])).

Definition dataset_json (i : Z) (scales : list Z) : json :=
  JObj [ ("coordinateTransformations",
           JArr [ JObj [ ("scale", JArr (map JDbl scales)); ("type", JStr "scale") ] ]);
         ("path", JStr (dec i)) ].

Definition axes_json (ds : list dim) : json :=
  JArr (map (axis_json false) (firstn (List.length ds - 2) ds)
        ++ map (axis_json true) (skipn (List.length ds - 2) ds)).

(** make_multiscale_metadata_ (zarr.stream.cpp:796-867). nlohmann reads { "cval", 0 } as the
    array ["cval", 0]. *)
Definition multiscale_json (ds : list dim) (nwriters : nat) : json :=
  let datasets :=
    dataset_json 0 (map (fun _ => 1) ds)
    :: map (fun i => let p := 2 ^ Z.of_nat i in
                     dataset_json (Z.of_nat i) (p :: repeat 1 (List.length ds - 3) ++ [p; p]))
           (seq 1 (nwriters - 1)) in
  JArr [ JObj ([ ("axes", axes_json ds); ("datasets", JArr datasets) ]
               ++ (if Nat.ltb 1 nwriters then
                     [ ("metadata", JObj [ ("args", JStr "[2]");
                                           ("description", JStr "The fields in the metadata describe how to reproduce this multiscaling in scikit-image. The method and its parameters are given here.");
                                           ("kwargs", JArr [ JStr "cval"; JInt 0 ]);
                                           ("method", JStr "skimage.transform.downscale_local_mean");
                                           ("version", JStr "0.21.0") ]);
                       ("type", JStr "local_mean") ] else [])
               ++ [ ("version", JStr "0.4") ]) ].

(** write_base_metadata_ (zarr.stream.cpp:689-726): key and document *)
Definition base_metadata (s : stream) : string * json :=
  if s_v3 s then
    ("zarr.json", JObj [ ("extensions", JArr []);
                         ("metadata_encoding", JStr "https://purl.org/zarr/spec/protocol/core/3.0");
                         ("metadata_key_suffix", JStr ".json");
                         ("zarr_format", JStr "https://purl.org/zarr/spec/protocol/core/3.0") ])
  else (".zattrs", JObj [ ("multiscales", multiscale_json (s_dims s) (List.length (s_writers s))) ]).

(** write_group_metadata_ (zarr.stream.cpp:728-759) *)
Definition group_metadata (s : stream) : string * json :=
  if s_v3 s then
    ("meta/root.group.json",
     JObj [ ("attributes", JObj [ ("multiscales", multiscale_json (s_dims s) (List.length (s_writers s))) ]) ])
  else (".zgroup", JObj [ ("zarr_format", JInt 2) ]).

(** metadata_sinks_.at(key): position of the key; at() throws std::out_of_range if absent *)
Fixpoint find_key (k : string) (l : list (string * option sink)) : option nat :=
  match l with
  | [] => None
  | (k', _) :: l' => if String.eqb k k' then Some O else option_map S (find_key k l')
  end.

(** sink->write(0, data) for metadata_sinks_.at(key), with the null check and error message *)
Definition write_metadata (E : env) (key : string) (data : list Z) (err : string) : M TW bool :=
  fun '(s, w) =>
    match find_key key (s_msinks s) with
    | None => ((s, w), Throw "_Map_base::at")
    | Some i =>
        match nth i (s_msinks s) (key, None) with
        | (_, None) => onT (set_error ("Metadata sink '" ++ key ++ "'not found")%string ;;; ret false) (s, w)
        | (k, Some sk) =>
            let '((sk', w'), r) := sink_write E 0 data (sk, w) in
            let s' := set_msinks s (upd (s_msinks s) i (k, Some sk')) in
            match r with
            | Ok true => ((s', w'), Ok true)
            | Ok false => onT (set_error err ;;; ret false) (s', w')
            | Throw m => ((s', w'), Throw m)
            | UB => ((s', w'), UB)
            | Hang => ((s', w'), Hang)
            end
        end
    end.

Definition text (s : string) : list Z := bytes_of_string s.

Definition write_base_metadata (E : env) : M TW bool :=
  s <- getT ;;
  let '(key, j) := base_metadata s in
  write_metadata E key (text (dump j)) "Error writing base metadata".

Definition write_group_metadata (E : env) : M TW bool :=
  s <- getT ;;
  let '(key, j) := group_metadata s in
  write_metadata E key (text (dump j)) "Error writing group metadata".

(** write_external_metadata_ (zarr.stream.cpp:761-794); a discarded value dumps as "<discarded>" *)
Definition custom_text (E : env) (m : string) : string :=
  match e_parse E m with Some t => t | None => "<discarded>" end.
Definition external_key (v3 : bool) : string := if v3 then "meta/acquire.json" else "acquire.json".
Definition write_external_metadata (E : env) : M TW bool :=
  s <- getT ;;
  if String.eqb (s_custom s) "" then ret true
  else write_metadata E (external_key (s_v3 s)) (text (custom_text E (s_custom s)))
                      "Error writing external metadata".

(** create_metadata_sinks_ (zarr.stream.cpp:660-687) *)
Definition create_metadata_sinks (E : env) : M TW bool :=
  s <- getT ;;
  let version := if s_v3 s then 3 else 2 in
  r <- onT (catchM (r <- match s_bucket s with
                         | Some b => make_metadata_sinks_s3 E version b (s_root s)
                         | None => l <- make_metadata_sinks_fs E version (s_root s) ;; ret (Some l)
                         end ;;
                    match r with
                    | Some l => ret (Some l)
                    | None => set_error "Error creating metadata sinks" ;;; ret None
                    end)
                   (fun m => set_error ("Error creating metadata sinks: " ++ m)%string ;;; ret None)) ;;
  match r with
  | Some l => modT (fun s => set_msinks s l) ;;; ret true
  | None => ret false
  end.

(** When the constructor throws, the members constructed so far are destroyed: the metadata sinks (zarr.stream.hh,
    metadata_sinks_) close their files; no data sink exists yet. *)
Definition drop_msinks (s : stream) : M world unit :=
  miter (fun ks => match snd ks with Some k => sink_destroy k | None => ret tt end) (s_msinks s).

(** ** ZarrStream_s::ZarrStream_s (zarr.stream.cpp:376-417) *)
Definition new_stream (E : env) (o : option settings) : M world stream :=
  fun w =>
  match validate_settings E w o, o with
  | Ok true, Some st =>
      (s <- liftM (commit st) ;;
       n <- liftM (bytes_of_frame (s_dims s) (s_dtype s)) ;;
       let s := set_fbuf s (zrep 0 n) 0 in
       ok <- create_store E s ;;
       expectM ok "create_store_" ;;;
       ws <- liftM (create_writers s) ;;
       let s := set_writers s ws in
       let s := if s_multi s then set_scaled s (map (fun _ => None) ws) 0 else s in
       fun w =>
         let '((s', w'), r) :=
           (ok <- create_metadata_sinks E ;;
            expectM ok "create_metadata_sinks_" ;;;
            ok <- write_base_metadata E ;;
            expectM ok "write_base_metadata_" ;;;
            ok <- write_group_metadata E ;;
            expectM ok "write_group_metadata_" ;;;
            ok <- write_external_metadata E ;;
            expectM ok "write_external_metadata_") (s, w) in
         match r with
         | Throw m => (fst (drop_msinks s' w'), Throw m)
         | _ => (w', let? _ := r in Ok s')
         end) w
  | Ok _, _ => (w, Throw "Invalid Zarr stream settings")
  | Throw m, _ => (w, Throw m)
  | UB, _ => (w, UB)
  | Hang, _ => (w, Hang)
  end.

(** ** Downscaling *)

Definition is_float (dt : Z) : bool := (dt =? dt_float32) || (dt =? dt_float64).

(** static_cast<T>(0.25 * sum) where sum is a sum of four bytes. Pixels of a floating-point
    type are kept in eighths (all values that occur are multiples of 1/8); a double outside the
    range of T is undefined behaviour. *)
Definition quarter (dt sum : Z) : outcome Z :=
  if is_float dt then Ok (2 * sum)
  else if (dt =? dt_int8) && (127 <? sum / 4) then UB
  else Ok (sum / 4).

(** static_cast<T>(0.5 * (dst[i] + src[i])): the sum of two uint32_t / uint64_t wraps.
    Simplification: all pixel values here come from [quarter], so the conversion of a 64-bit
    sum to double is exact. *)
Definition mean2 (dt a b : Z) : Z :=
  if dt =? dt_uint32 then u32 (a + b) / 2
  else if dt =? dt_uint64 then u64 (a + b) / 2
  else (a + b) / 2.

(** IEEE 754 bits of n/8 (0 <= n < 2^m), mantissa width m *)
Definition float_bits (m bias n : Z) : Z :=
  if n =? 0 then 0
  else let e := Z.log2 n in (e - 3 + bias) * 2 ^ m + (n - 2 ^ e) * 2 ^ (m - e).

Definition pixel_bytes (dt bpp v : Z) : list Z :=
  if dt =? dt_float32 then le_bytes 4 (float_bits 23 127 v)
  else if dt =? dt_float64 then le_bytes 8 (float_bits 52 1023 v)
  else le_bytes (Z.to_nat bpp) v.
Definition pixels_bytes (dt bpp : Z) (l : list Z) : list Z := flat_map (pixel_bytes dt bpp) l.

(** the body of the inner loop of scale_image (zarr.stream.cpp:320-340); [src] is indexed in bytes *)
Definition scale_sum (src : list Z) (width height row col : Z) : Z :=
  let pad_h := (row =? height - 1) && (height mod 2 =? 1) in
  let pad_w := (col =? width - 1) && (width mod 2 =? 1) in
  let i := row * width + col in
  let right := if pad_w then 0 else 1 in
  let down := if pad_h then 0 else width in
  getb src i + getb src (i + right) + getb src (i + down) + getb src (i + down + right).

(** scale_image<T> (zarr.stream.cpp:288-348): pixels, bytes, width and height of the result.
    The loop counters are ints; casting a double of 2^32 or more to uint32_t is undefined. *)
Definition scale_image (dt bpp : Z) (src : list Z) (nbytes width height : Z)
  : outcome (list Z * Z * Z * Z) :=
  if nbytes <? u64 (u64 (width * height) * bpp) then Throw "Expecting at least %zu bytes, got %zu"
  else
    let wp := width + width mod 2 in
    let hp := height + height mod 2 in
    let n := wp * hp * bpp / 4 in
    if (2 ^ 32 <=? n) || (2 ^ 31 - 2 <? width) || (2 ^ 31 - 2 <? height) then UB
    else
      let? px := omap (fun rc => quarter dt (scale_sum src width height (2 * fst rc) (2 * snd rc)))
                      (flat_map (fun r => map (fun c => (r, c)) (zseq (wp / 2))) (zseq (hp / 2))) in
      Ok (px, n, wp / 2, hp / 2).

(** average_two_frames<T> (zarr.stream.cpp:350-371); both frames have the same size *)
Fixpoint average_two (dt : Z) (dst src : list Z) : list Z :=
  match dst, src with
  | a :: d, b :: s => mean2 dt a b :: average_two dt d s
  | _, _ => dst
  end.

(** the loop of write_multiscale_frames_ (zarr.stream.cpp:919-958), level [i] of [n] writers.
    [leaks]: data points to a scaled image of the previous level, which nobody deletes. *)
Fixpoint multiscale_loop (E : env) (bpp : Z) (fuel i : nat) (data : list Z) (nbytes width height : Z) : M TW unit :=
  match fuel with
  | O => ret tt
  | S f =>
      s <- getT ;;
      r <- liftM (scale_image (s_dtype s) bpp data nbytes width height) ;;
      let '(px, nb, w', h') := r in
      match nth i (s_scaled s) None with
      | Some old =>
          let avg := average_two (s_dtype s) px old in
          let bytes := pixels_bytes (s_dtype s) bpp avg in
          n <- on_writer i (write_frame E (slice bytes 0 nb)) ;;
          expectM (negb (n =? 0)) "Failed to write frame to writer %zu" ;;;
          modT (fun s => set_scaled s (upd (s_scaled s) i None)
                                    (s_leaked s + if Nat.ltb (S i) (List.length (s_writers s)) then 1 else 0)) ;;;
          multiscale_loop E bpp f (S i) bytes nb w' h'
      | None => modT (fun s => set_scaled s (upd (s_scaled s) i (Some px)) (s_leaked s))
      end
  end.

(** write_multiscale_frames_ (zarr.stream.cpp:869-959) *)
Definition write_multiscale (E : env) (data : list Z) (nbytes : Z) : M TW unit :=
  s <- getT ;;
  if s_multi s then
    if dt_count <=? s_dtype s then throwM "Invalid data type: "
    else
      bpp <- liftM (bytes_of_type (s_dtype s)) ;;
      multiscale_loop E bpp (List.length (s_writers s) - 1) 1 data nbytes
                      (d_array (width_dim (s_dims s))) (d_array (height_dim (s_dims s)))
  else ret tt.

(** ** append (zarr.stream.cpp:419-476) *)

(** [data] is the whole caller buffer; [pos] = current data pointer - data_, [written] =
    bytes_written. Reading past the end of the buffer is undefined behaviour. [fuel] bounds the
    iterations; running out of it is the outcome [Hang]. *)
Fixpoint append_loop (E : env) (fuel : nat) (data : list Z) (pos written : Z) : M TW Z :=
  match fuel with
  | O => hangM
  | S f =>
      if written <? zlen data then
        s <- getT ;;
        let fsize := zlen (s_fbuf s) in
        let remaining := zlen data - written in
        if 0 <? s_foff s then
          let n := Z.min (fsize - s_foff s) remaining in
          if zlen data <? pos + written + n then ubM
          else
            modT (fun s => set_fbuf s (splice (s_fbuf s) (s_foff s) (slice data (pos + written) n)) (s_foff s + n)) ;;;
            if s_foff s + n =? fsize then
              if zlen data <? pos + fsize then ubM
              else
                r <- on_writer 0 (write_frame E (slice data pos fsize)) ;;
                if r =? 0 then ret (written + n)
                else
                  modT (fun s => set_fbuf s (s_fbuf s) 0) ;;;
                  append_loop E f data (pos + n) (written + n + n)
            else append_loop E f data pos (written + n)
        else if remaining <? fsize then
          if zlen data <? pos + remaining then ubM
          else
            modT (fun s => set_fbuf s (splice (s_fbuf s) 0 (slice data pos remaining)) remaining) ;;;
            append_loop E f data pos (written + remaining)
        else
          if zlen data <? pos + fsize then ubM
          else
            r <- on_writer 0 (write_frame E (slice data pos fsize)) ;;
            if r =? 0 then ret written
            else
              write_multiscale E (slice data pos fsize) r ;;;
              append_loop E f data (pos + r) (written + r)
      else ret written
  end.

Definition append (E : env) (data : list Z) : M TW Z :=
  w <- onT getM ;;
  expectM (String.eqb (w_err w) "") "Cannot append data: " ;;;
  append_loop E (S (List.length data)) data 0 0.

(** ** finalize_stream (zarr.stream.cpp:961-1000) *)

(** one entry of metadata_sinks_ (zarr.stream.cpp:974-980) *)
Definition finalize_msink (E : env) (i : nat) : M TW bool :=
  fun '(s, w) =>
    match nth_error (s_msinks s) i with
    | None => ((s, w), UB)
    | Some (k, o) =>
        let '((o', w'), r) := finalize_sink E (o, w) in
        ((set_msinks s (upd (s_msinks s) i (k, o')), w'), r)
    end.

Fixpoint all_ok {A} (f : A -> M TW bool) (l : list A) : M TW bool :=
  match l with
  | [] => ret true
  | a :: l' => ok <- f a ;; if ok then all_ok f l' else ret false
  end.

(** Simplification: metadata_sinks_ is an unordered_map; its entries are finalized here in
    creation order. *)
Definition finalize_stream (E : env) : M TW bool :=
  ok <- write_group_metadata E ;;
  if ok then
    s <- getT ;;
    ok <- all_ok (finalize_msink E) (seq 0 (List.length (s_msinks s))) ;;
    if ok then
      modT (fun s => set_msinks s []) ;;;
      s <- getT ;;
      ok <- all_ok (fun i => on_writer i (finalize_array E)) (seq 0 (List.length (s_writers s))) ;;
      if ok then modT (fun s => set_writers s []) ;;; ret true else ret false
    else ret false
  else ret false.
