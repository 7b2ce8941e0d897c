(** What a theorem about a whole session (create, append calls, destroy) assumes, and how the
    store is read afterwards. Nothing here says what the code does. *)
Require Import ZArith List Bool String Ascii.
Require Import Verif.Base Verif.Spec Verif.Dim Verif.Limits Verif.World Verif.Stream Verif.Api Verif.SettingsSpec.
Import ListNotations.
Open Scope string_scope.
Open Scope list_scope.
Open Scope Z_scope.

(** One use of the library: the machine, what is on it before, the settings; and names for what the
    settings say: append dimension, middle dimensions, rows, columns, bytes per pixel, the store's
    path without surrounding white space, the bucket. [u_enc] and [u_dec] stand for the compressor
    on this machine and for the reader's decompressor. *)
Record use : Type := mkuse {
  u_env : env; u_world : world; u_set : settings;
  u_d0 : dim; u_mids : list dim; u_dy : dim; u_dx : dim; u_bpp : Z;
  u_root : string; u_bk : option string;
  u_enc : list Z -> list Z; u_dec : list Z -> list Z }.

Definition u_dims (u : use) : list dim := u_d0 u :: u_mids u ++ [u_dy u; u_dx u].
(** bytes of one frame, and of one uncompressed chunk *)
Definition u_frame (u : use) : Z := d_array (u_dy u) * d_array (u_dx u) * u_bpp u.
Definition u_chunkb (u : use) : Z := prodZ (map d_chunk (u_dims u)) * u_bpp u.
(** an upper bound of a compressed chunk: Blosc adds at most 16 bytes (BLOSC_MAX_OVERHEAD) *)
Definition u_most (u : use) : Z := match st_comp (u_set u) with None => u_chunkb u | Some _ => u_chunkb u + 16 end.

(** the object with key [k] of the store, or file [k] *)
Definition stored (E : env) (tr : list event) (bucket : option string) (k : string) : option (list Z) :=
  match bucket with None => file_of E tr k | Some b => object_of E tr b k end.

(** [d] gets smaller by downsampling for as long as its chunk is larger than 1 *)
Definition can_shrink (d : dim) : Prop := d_type d <> ty_channel /\ 0 < d_array d /\ 1 < d_chunk d.

(** the scaled images fit the 32-bit variables of the code *)
Definition image_fits (bpp W H : Z) : Prop :=
  W <= 2 ^ 31 - 2 /\ H <= 2 ^ 31 - 2 /\ ceil_div W 2 * ceil_div H 2 * bpp < 2 ^ 32.

Record fair_use (u : use) : Prop := {
  (* no request to the machine fails *)
  fu_fs : forall k, e_fault (u_env u) k = false;
  fu_s3 : forall k, e_s3 (u_env u) k = true;
  fu_stat : forall k p, e_stat (u_env u) k p = true;
  fu_conns : u_bk u <> None -> e_conns (u_env u) <> 0%nat;
  (* files lie in directories; no error yet (the stream does not exist) *)
  fu_disk : forall d p, under d p = true -> d <> p -> d <> "" ->
              file_of (u_env u) (w_trace (u_world u)) p <> None -> dir_of (u_env u) (w_trace (u_world u)) d = true;
  fu_err : w_err (u_world u) = "";
  (* the settings are as documented *)
  fu_typed : typed (u_set u);
  fu_strings : strings_present (u_set u);
  fu_doc : documented (u_env u) (u_world u) (u_set u);
  (* the names used for the settings *)
  fu_root : exists p, st_path (u_set u) = Some p /\ trimmed_to p (u_root u);
  fu_bk : match st_s3 (u_set u) with
          | None => u_bk u = None
          | Some x => exists b t, x_bucket x = Some b /\ trimmed_to b t /\ u_bk u = Some t
          end;
  fu_dims : exists l, st_dims (u_set u) = Some l /\ map dim_of l = u_dims u;
  fu_bpp : bytes_of_type (st_dtype (u_set u)) = Ok (u_bpp u);
  (* not covered: an all-blank path and URLs *)
  fu_path : u_root u <> "" /\ (u_bk u = None -> String.prefix "file:" (u_root u) = false);
  (* the compressor and the decompressor work *)
  fu_codec : match st_comp (u_set u) with
             | None => (forall raw, u_enc u raw = raw) /\ (forall raw, u_dec u raw = raw)
             | Some c => forall raw, 0 < zlen raw <= u_chunkb u ->
                 e_compress (u_env u) (blosc_of c) (u_bpp u) raw = Some (u_enc u raw) /\
                 0 < zlen (u_enc u raw) <= zlen raw + 16 /\ u_dec u (u_enc u raw) = raw
             end;
  (* sizes fit the integer types of the code *)
  fu_fits : fits (u_bpp u) (u_d0 u) (u_mids u) (u_dy u) (u_dx u);
  fu_epoch : fits_epoch (u_bpp u) (u_d0 u) (u_mids u) (u_dy u) (u_dx u);
  fu_most : u_most u < 2 ^ 64;
  fu_shards : st_version (u_set u) = 3 -> fits_shards (u_d0 u) (u_mids u) (u_dy u) (u_dx u) /\
      d_shard (u_d0 u) * (prodZ (map nch (u_mids u)) * (nch (u_dy u) * nch (u_dx u)) * u_most u)
      + 16 * prodZ (map d_shard (u_dims u)) < 2 ^ 64;
  fu_ndims : (List.length (u_dims u) <= 1000)%nat;
  fu_names : Forall (fun d => (String.length (d_name d) <= 100)%nat) (u_dims u);
  fu_meta : forall m t, e_parse (u_env u) m = Some t -> Z.of_nat (String.length t) < 2 ^ 64;
  (* multiscale: only if some dimension can be downsampled at all; pixels of type int8 are not covered *)
  fu_multi : st_multi (u_set u) = true ->
      (0 <= d_array (u_d0 u) < 2 ^ 32 - 1 /\ d_array (u_d0 u) + d_chunk (u_d0 u) <= 2 ^ 32) /\
      image_fits (u_bpp u) (d_array (u_dx u)) (d_array (u_dy u)) /\
      st_dtype (u_set u) <> dt_int8 /\ exists d, In d (u_dims u) /\ can_shrink d }.

(** Every call gets whole frames: [groups] has one entry per append call, and a call with group [g]
    gets the frames of [g] one after the other. *)
Definition whole_frames (u : use) (groups : list (list (list Z))) : Prop :=
  Forall (Forall (fun f => zlen f = u_frame u)) groups /\ zlen (List.concat groups) < 2 ^ 32.
Definition calls (groups : list (list (list Z))) : list (list Z) := map (@List.concat Z) groups.

(** the machine after create, one append per group, destroy *)
Definition after (u : use) (groups : list (list (list Z))) : world :=
  fst (session (u_env u) (u_set u) (calls groups) (u_world u)).
(** create and destroy succeed, and every append accepts all its bytes *)
Definition succeeds (u : use) (groups : list (list (list Z))) : Prop :=
  snd (session (u_env u) (u_set u) (calls groups) (u_world u))
  = Ok (Some (map (fun c => (st_success, Some (zlen c))) (calls groups), true)).
(** what a reader gets under key [k] of the store *)
Definition key (u : use) (groups : list (list (list Z))) (k : string) : option (list Z) :=
  stored (u_env u) (w_trace (after u groups)) (u_bk u) (u_root u ++ "/" ++ k)%string.
