(** How the life of a stream ends, as a program of the client thread of the thread pool (Pool.v). *)
Require Import ZArith List Bool String.
Require Import Verif.Base Verif.World Verif.Stream Verif.Pool.
Import ListNotations.

Section Destroy.
Context {D : Type}.
Variable finalized : D -> bool.
(** The end of ZarrStream_destroy (acquire.zarr.cpp:152-159): if finalize_stream returned false the stream is kept and the function returns.
    Otherwise finalize_stream has called await_stop as the last thing it does (zarr.stream.cpp:996-999) and the stream is deleted:
    ~ThreadPool (thread.pool.cpp:16-26) drops the queue and calls await_stop again. [finalized] is what finalize_stream has found out about the
    data: all of the metadata sinks and writers are finalized. *)
Definition destroy_tail : client D := CDo (fun d => d) (fun d => if finalized d then CStop (CClear (CStop CRet)) else CRet).
(** A client that does whatever it likes with the pool, except stopping it, and then destroys the stream. *)
Inductive lives : client D -> Prop :=
| l_end : lives destroy_tail
| l_do f k : (forall d, lives (k d)) -> lives (CDo f k)
| l_push j k : (forall b, lives (k b)) -> lives (CPush j k)
| l_latch n k : lives k -> lives (CLatch n k)
| l_wait k : lives k -> lives (CWait k).
End Destroy.

(** ZarrStream_destroy for a stream none of whose jobs are left: [finalize_stream] of the sequential model as one step, then [destroy_tail] *)
Definition result (r : outcome bool) : bool := match r with Ok b => b | _ => false end.
Definition destroy_stream (E : env) : client (TW * bool) :=
  CDo (fun d => let '(tw, r) := finalize_stream E (fst d) in (tw, result r)) (fun _ => destroy_tail snd).
