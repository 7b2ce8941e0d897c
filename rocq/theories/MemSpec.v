(** What C56 means: how many bytes of image data a stream keeps in memory. *)
Require Import ZArith List Bool String.
Require Import Verif.Base Verif.World Verif.Writer Verif.Stream Verif.Spec Verif.Api.
Import ListNotations.
Open Scope Z_scope.
Definition total (l : list Z) : Z := fold_right Z.add 0 l.
(** the image data waiting in a stream: the frame that is not complete yet, and the chunks of every level that have not been written *)
Definition waiting (s : stream) : Z := zlen (s_fbuf s) + total (map (fun a => total (map zlen (a_bufs a))) (s_writers s)).
(** the buffers for parts of objects (of 5 MiB each, s3.sink.hh:36-38): one for each object that is being written *)
Definition object_buffers (s : stream) : Z :=
  zlen (filter (fun o => match o with Some (SS3 _) => true | _ => false end)
          (flat_map (fun a => a_meta a :: a_sinks a) (s_writers s) ++ map snd (s_msinks s))).
(** how many append calls have reported a failure *)
Definition failed (rs : list (Z * option Z)) : Z := zlen (filter (fun r => negb (fst r =? st_success)) rs).
(** a compressor that adds at most a header of 16 bytes (BLOSC_MAX_OVERHEAD): blosc_compress_ctx is given that much room, array.writer.cpp:359-371 *)
Definition honest_compressor (E : env) : Prop :=
  forall p n d out, e_compress E p n d = Some out -> zlen out <= zlen d + 16.
(** the bytes of a frame, and of all the chunks that have one index along the append dimension *)
Definition frame_bytes (bpp : Z) (ds : list udim) : Z :=
  bpp * match rev ds with x :: y :: _ => u_array y * u_array x | _ => 0 end.
Definition row_chunks (ds : list udim) : Z := fold_right (fun d n => ceil_div (u_array d) (u_chunk d) * n) 1 (tl ds).
Definition row_bytes (bpp : Z) (ds : list udim) : Z := row_chunks ds * (bpp * fold_right (fun d n => u_chunk d * n) 1 ds).
