(** Model of ThreadPool (thread.pool.cpp), of the latches of the library and of one client thread, as an interleaving semantics.
    Shared: the job queue, is_accepting_jobs_, the mutex, the condition variable (the workers waiting on it), the current latch and the
    data. Simplifications: sequentially consistent memory; one latch at a time (the library waits for a latch before it makes the next
    one); one action of a job is atomic; jobs catch their exceptions (all jobs of the library do); creation of threads never fails. *)
Require Import ZArith List Bool String.
Import ListNotations.
Open Scope list_scope.

(** the clamp of ThreadPool::ThreadPool (thread.pool.cpp:5-14): hw = hardware_concurrency() *)
Definition pool_size (requested hw : Z) : Z := Z.min (Z.max requested 1) (Z.max hw 1).

Section Pool.
Variable D : Type.                         (* the data jobs and client share *)
Variable handler : string -> D -> D.       (* error_handler_ *)

(** the local variables of a job: success, err *)
Definition local : Type := bool * string.
Inductive action : Type :=
| Act (f : local -> D -> local * D)        (* one atomic step on the data *)
| CountDown.                               (* latch.count_down() *)
Definition job : Type := list action.      (* runs to the end and returns success, err *)

(** a program of the client thread *)
Inductive client : Type :=
| CRet
| CDo (f : D -> D) (k : D -> client)       (* an atomic step; the rest depends on the data before it *)
| CPush (j : job) (k : bool -> client)     (* push_job *)
| CLatch (n : nat) (k : client)            (* std::latch latch(n) *)
| CWait (k : client)                       (* latch.wait() *)
| CStop (k : client)                       (* await_stop *)
| CClear (k : client).                     (* the first block of ~ThreadPool *)

(** where a worker is in process_tasks_ *)
Inductive worker : Type :=
| WLock                                    (* about to lock the mutex: line 81, or woken up in line 82 *)
| WHold                                    (* has the mutex, evaluates the predicate: line 82 *)
| WWait                                    (* waits on cv_, without the mutex: line 82 *)
| WRun (id : nat) (rest : job) (l : local) (* runs a job: line 90 *)
| WHandle (id : nat) (msg : string)        (* calls the error handler: line 91 *)
| WDone.                                   (* returned: lines 84-86 *)

Inductive owner : Type := OClient | OWorker (i : nat).
Record state : Type := mkstate {
  queue : list (nat * job);                (* jobs_, numbered in the order of acceptance *)
  accepting : bool;                        (* is_accepting_jobs_ *)
  mutex : option owner;                    (* who has jobs_mutex_ *)
  latch : nat;                             (* the counter of the current latch *)
  workers : list worker;
  prog : client;
  data : D;
  accepted : nat;                          (* number of jobs accepted *)
  joining : option nat                     (* the loop of await_stop is at this thread *)
}.
(** ThreadPool::ThreadPool (thread.pool.cpp:5-14) *)
Definition init (n : nat) (c : client) (d : D) : state := mkstate [] true None 0 (repeat WLock n) c d 0 None.

Inductive label : Type :=
| LTau | LAccept (id : nat) (j : job) | LReject | LDrop (ids : list nat) | LPass | LStopped
| LWorker (i : nat) | LStart (id i : nat) | LAct (id : nat) | LEnd (id i : nat) | LSpurious (i : nat).

Definition put {A} (l : list A) (i : nat) (x : A) : list A := firstn i l ++ x :: skipn (S i) l.
(** cv_.notify_one(): one of the waiting workers, if there is one *)
Inductive notify_one : list worker -> list worker -> Prop :=
| n_one ws i : nth_error ws i = Some WWait -> notify_one ws (put ws i WLock)
| n_none ws : ~ In WWait ws -> notify_one ws ws.
(** cv_.notify_all() *)
Definition notify_all (ws : list worker) : list worker := map (fun w => match w with WWait => WLock | _ => w end) ws.

Definition needs_lock (c : client) : bool := match c with CPush _ _ | CStop _ | CClear _ => true | _ => false end.

(** the client thread *)
Inductive client_step : state -> label -> state -> Prop :=
| s_do q a m l ws d n jn f k :
    client_step (mkstate q a m l ws (CDo f k) d n jn) LTau (mkstate q a m l ws (k d) (f d) n jn)
| s_latch q a m l ws d n jn l' k :
    client_step (mkstate q a m l ws (CLatch l' k) d n jn) LTau (mkstate q a m l' ws k d n jn)
| s_wait q a m ws d n jn k :
    client_step (mkstate q a m 0 ws (CWait k) d n jn) LPass (mkstate q a m 0 ws k d n jn)
| s_lock q a l ws c d n :
    needs_lock c = true ->
    client_step (mkstate q a None l ws c d n None) LTau (mkstate q a (Some OClient) l ws c d n None)
(* push_job (thread.pool.cpp:28-40) *)
| s_push q l ws ws' d n jn j k :
    notify_one ws ws' ->
    client_step (mkstate q true (Some OClient) l ws (CPush j k) d n jn) (LAccept n j) (mkstate (q ++ [(n, j)]) true None l ws' (k true) d (S n) jn)
| s_reject q l ws d n jn j k :
    client_step (mkstate q false (Some OClient) l ws (CPush j k) d n jn) LReject (mkstate q false None l ws (k false) d n jn)
(* await_stop (thread.pool.cpp:42-58) *)
| s_stop q a l ws d n k :
    client_step (mkstate q a (Some OClient) l ws (CStop k) d n None) LTau (mkstate q false None l (notify_all ws) (CStop k) d n (Some 0%nat))
| s_join q a m l ws d n i k :
    nth_error ws i = Some WDone ->
    client_step (mkstate q a m l ws (CStop k) d n (Some i)) LTau (mkstate q a m l ws (CStop k) d n (Some (S i)))
| s_joined q a m l ws d n i k :
    nth_error ws i = None ->
    client_step (mkstate q a m l ws (CStop k) d n (Some i)) LStopped (mkstate q a m l ws k d n None)
(* ~ThreadPool (thread.pool.cpp:18-23) *)
| s_clear q a l ws d n jn k :
    client_step (mkstate q a (Some OClient) l ws (CClear k) d n jn) (LDrop (map fst q)) (mkstate [] a None l ws k d n jn).

(** a worker: process_tasks_ (thread.pool.cpp:78-96) *)
Inductive worker_step : state -> label -> state -> Prop :=
| w_lock q a l ws c d n jn i :
    nth_error ws i = Some WLock ->
    worker_step (mkstate q a None l ws c d n jn) (LWorker i) (mkstate q a (Some (OWorker i)) l (put ws i WHold) c d n jn)
| w_wait m l ws c d n jn i :
    nth_error ws i = Some WHold ->
    worker_step (mkstate [] true m l ws c d n jn) (LWorker i) (mkstate [] true None l (put ws i WWait) c d n jn)
| w_exit m l ws c d n jn i :
    nth_error ws i = Some WHold ->
    worker_step (mkstate [] false m l ws c d n jn) (LWorker i) (mkstate [] false None l (put ws i WDone) c d n jn)
| w_pop id j q a m l ws c d n jn i :
    nth_error ws i = Some WHold ->
    worker_step (mkstate ((id, j) :: q) a m l ws c d n jn) (LStart id i) (mkstate q a None l (put ws i (WRun id j (true, ""%string))) c d n jn)
| w_act q a m l ws c d n jn i id f r x x' d' :
    nth_error ws i = Some (WRun id (Act f :: r) x) -> f x d = (x', d') ->
    worker_step (mkstate q a m l ws c d n jn) (LAct id) (mkstate q a m l (put ws i (WRun id r x')) c d' n jn)
| w_count q a m l ws c d n jn i id r x :
    nth_error ws i = Some (WRun id (CountDown :: r) x) ->
    worker_step (mkstate q a m l ws c d n jn) (LWorker i) (mkstate q a m (pred l) (put ws i (WRun id r x)) c d n jn)
| w_ok q a m l ws c d n jn i id msg :
    nth_error ws i = Some (WRun id [] (true, msg)) ->
    worker_step (mkstate q a m l ws c d n jn) (LEnd id i) (mkstate q a m l (put ws i WLock) c d n jn)
| w_failed q a m l ws c d n jn i id msg :
    nth_error ws i = Some (WRun id [] (false, msg)) ->
    worker_step (mkstate q a m l ws c d n jn) (LWorker i) (mkstate q a m l (put ws i (WHandle id msg)) c d n jn)
| w_handle q a m l ws c d n jn i id msg :
    nth_error ws i = Some (WHandle id msg) ->
    worker_step (mkstate q a m l ws c d n jn) (LEnd id i) (mkstate q a m l (put ws i WLock) c (handler msg d) n jn).

(** a spurious wake-up of condition_variable::wait *)
Inductive spurious_step : state -> label -> state -> Prop :=
| sp q a m l ws c d n jn i :
    nth_error ws i = Some WWait ->
    spurious_step (mkstate q a m l ws c d n jn) (LSpurious i) (mkstate q a m l (put ws i WLock) c d n jn).

Definition step (s : state) (x : label) (s' : state) : Prop := client_step s x s' \/ worker_step s x s' \/ spurious_step s x s'.
Inductive steps : state -> list label -> state -> Prop :=
| steps_nil s : steps s [] s
| steps_snoc s t s' x s'' : steps s t s' -> step s' x s'' -> steps s (t ++ [x]) s''.
End Pool.
Arguments Act {D}.
Arguments CountDown {D}.
Arguments CRet {D}.
Arguments CDo {D}.
Arguments CPush {D}.
Arguments CLatch {D}.
Arguments CWait {D}.
Arguments CStop {D}.
Arguments CClear {D}.
Arguments WLock {D}.
Arguments WHold {D}.
Arguments WWait {D}.
Arguments WRun {D}.
Arguments WHandle {D}.
Arguments WDone {D}.
Arguments mkstate {D}.
Arguments queue {D}.
Arguments accepting {D}.
Arguments mutex {D}.
Arguments latch {D}.
Arguments workers {D}.
Arguments prog {D}.
Arguments data {D}.
Arguments accepted {D}.
Arguments joining {D}.
Arguments init {D}.
Arguments LTau {D}.
Arguments LAccept {D}.
Arguments LReject {D}.
Arguments LDrop {D}.
Arguments LPass {D}.
Arguments LStopped {D}.
Arguments LWorker {D}.
Arguments LStart {D}.
Arguments LAct {D}.
Arguments LEnd {D}.
Arguments LSpurious {D}.
Arguments notify_one {D}.
Arguments notify_all {D}.
Arguments needs_lock {D}.
Arguments client_step {D}.
Arguments worker_step {D}.
Arguments spurious_step {D}.
Arguments step {D}.
Arguments steps {D}.
Arguments steps_nil {D}.
Arguments steps_snoc {D}.
