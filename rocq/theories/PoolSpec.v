(** What C18-C22, C45 and C46 are about: the visible history of the thread pool. *)
Require Import List Bool String Arith.
Require Import Verif.Pool.
Import ListNotations.

Section Spec.
Context {D : Type}.
(** the jobs accepted, started, finished, dropped: in this order *)
Definition accepts (t : list (label D)) : list nat := flat_map (fun x => match x with LAccept id _ => [id] | _ => [] end) t.
Definition starts (t : list (label D)) : list nat := flat_map (fun x => match x with LStart id _ => [id] | _ => [] end) t.
Definition ends (t : list (label D)) : list nat := flat_map (fun x => match x with LEnd id _ => [id] | _ => [] end) t.
Definition drops (t : list (label D)) : list nat := flat_map (fun x => match x with LDrop ids => ids | _ => [] end) t.
(** number of actions job [id] has performed *)
Definition acted (id : nat) (t : list (label D)) : nat := List.length (filter (fun x => match x with LAct k => Nat.eqb k id | _ => false end) t).
Definition spurious (t : list (label D)) : nat := List.length (filter (fun x => match x with LSpurious _ => true | _ => false end) t).
(** something a worker does *)
Definition by_worker (x : label D) : Prop :=
  match x with LWorker _ | LStart _ _ | LAct _ | LEnd _ _ | LSpurious _ => True | _ => False end.
(** a worker that has been woken up, or comes back from a job, and will look at the queue next *)
Definition heading (w : worker D) : bool := match w with WLock | WHold => true | _ => false end.
Definition waiting (w : worker D) : bool := match w with WWait => true | _ => false end.

(** *** how the library uses latches *)
Definition cds (j : job D) : nat := List.length (filter (fun a => match a with CountDown => true | _ => false end) j).
Definition nacts (j : job D) : nat := List.length (filter (fun a => match a with Act _ => true | _ => false end) j).
(** what a job does before it counts down *)
Fixpoint before (j : job D) : job D := match j with Act f :: r => Act f :: before r | _ => [] end.
(** after await_stop: no jobs, no latches *)
Inductive quiet : client D -> Prop :=
| q_ret : quiet CRet
| q_do f k : (forall d, quiet (k d)) -> quiet (CDo f k)
| q_stop k : quiet k -> quiet (CStop k)
| q_clear k : quiet k -> quiet (CClear k).
(** [disciplined o m c]: whenever [c] makes a latch for n count-downs it pushes jobs with n count-downs and waits for the latch before it
    makes another one ([o]: a latch has been made and not been waited for, [m]: count-downs still to be pushed). *)
Inductive disciplined : bool -> nat -> client D -> Prop :=
| d_ret : disciplined false 0 CRet
| d_do o m f k : (forall d, disciplined o m (k d)) -> disciplined o m (CDo f k)
| d_latch m k : disciplined true m k -> disciplined false 0 (CLatch m k)
| d_push j m k : 0 < cds j -> disciplined true m (k true) -> disciplined true (cds j + m) (CPush j k)
| d_wait k : disciplined false 0 k -> disciplined true 0 (CWait k)
| d_stop k : quiet k -> disciplined false 0 (CStop k).
(** flush_impl_, compress_buffers_, make_dirs_, make_files_ all have this form; EXPECT(push_job(...)) *)
Fixpoint pushes (js : list (job D)) (k : client D) : client D :=
  match js with [] => k | j :: r => CPush j (fun ok => if ok then pushes r k else CRet) end.
Definition batch (js : list (job D)) (k : client D) : client D := CLatch (List.length js) (pushes js (CWait k)).
(** idle: no job is queued, and the workers that still run one have only to return success *)
Definition idle (s : state D) : Prop :=
  queue s = [] /\ forall w, In w (workers s) -> w <> WDone /\ (forall id m, w <> WHandle id m) /\ forall id r x, w = WRun id r x -> r = [] /\ fst x = true.
End Spec.
Definition count {A} (p : A -> bool) (l : list A) : nat := List.length (filter p l).
