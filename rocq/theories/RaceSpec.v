(** Vocabulary of C54 and C55: who is about to touch what, in a state of the thread pool and its client. *)
Require Import List Bool String Arith.
Require Import Verif.Pool Verif.PoolSpec.
Import ListNotations.

Section Race.
Context {D : Type}.
(** A worker is still going to do something in job [id]. Every step of a job of the library, and the latch it counts down, uses variables of the call
    that pushed it (make_dirs_, make_files_, compress_buffers_, flush_impl_): they are captured by reference. *)
Definition uses_frame (s : state D) (id : nat) : Prop := exists i a r l, nth_error (workers s) i = Some (WRun id (a :: r) l).
(** the job has not been taken from the queue *)
Definition queued (s : state D) (id : nat) : Prop := In id (map fst (queue s)).
(** the job counts the latch down once, and last *)
Definition counts_last (j : job D) : Prop := exists acts, j = acts ++ [CountDown] /\ cds acts = 0.

(** A worker is about to write the error of the stream: set_error_ assigns a std::string, under no lock. *)
Definition writes_error (s : state D) (i : nat) : Prop := exists id msg, nth_error (workers s) i = Some (WHandle id msg).
(** Two threads are about to touch the error of the stream at the same time, one of them to write it: two workers, or a worker and the client
    thread, which reads it at the beginning of append. [reads]: what the client does next reads the error. *)
Definition error_race (reads : client D -> Prop) (s : state D) : Prop :=
  (exists i j, i <> j /\ writes_error s i /\ writes_error s j) \/ (exists i, writes_error s i /\ reads (prog s)).

(** [wins G j l]: the job, or what is left of it, can be run step by step, other threads doing what they like in between as long as [G] holds of the
    data, and returns true *)
Inductive wins (G : D -> Prop) : job D -> local -> Prop :=
| win_end l : fst l = true -> wins G [] l
| win_count r l : wins G r l -> wins G (CountDown :: r) l
| win_act f r l : (forall d, G d -> G (snd (f l d)) /\ wins G r (fst (f l d))) -> wins G (Act f :: r) l.
(** the client keeps [G] and pushes only such jobs *)
Inductive pushes_winners (G : D -> Prop) : client D -> Prop :=
| pw_ret : pushes_winners G CRet
| pw_do f k : (forall d, G d -> G (f d) /\ pushes_winners G (k d)) -> pushes_winners G (CDo f k)
| pw_push j k : wins G j (true, ""%string) -> (forall b, pushes_winners G (k b)) -> pushes_winners G (CPush j k)
| pw_latch n k : pushes_winners G k -> pushes_winners G (CLatch n k)
| pw_wait k : pushes_winners G k -> pushes_winners G (CWait k)
| pw_stop k : pushes_winners G k -> pushes_winners G (CStop k)
| pw_clear k : pushes_winners G k -> pushes_winners G (CClear k).
End Race.
