(** Model of S3ConnectionPool (s3.connection.cpp:217-264) as threads of the library use it at the same time, as an interleaving semantics. Each
    thread has objects of its own to write through an S3Sink (s3.sink.cpp) and buckets to look for, one after the other.
    Simplifications: sequentially consistent memory; between two calls of the pool or the server a thread takes no observable step; the server
    handles one request at a time and gives every multipart upload a new id; the pool accepts connections (its destructor runs when no stream
    and no sink is left that could use it: all hold it by shared_ptr); the mutex is released together with the last step under it. *)
Require Import ZArith List Bool String.
Require Import Verif.Base Verif.World.
Require Verif.Pool.
Notation put := Verif.Pool.put (only parsing).
Import ListNotations.
Open Scope string_scope.
Open Scope list_scope.
Open Scope Z_scope.

(** what a thread does with the pool and the server *)
Inductive prog (R : Type) : Type :=
| PRet (r : R)                                                   (* done *)
| PGet (k : prog R)                                              (* get_connection() *)
| PReq (es : list event) (k : bool -> prog R)                    (* a request; what it leaves if the server accepts it *)
| PNew (f : Z -> list event) (k : bool -> Z -> prog R)           (* the request that starts an upload; the server makes up its id *)
| PGive (k : prog R)                                             (* return_connection(std::move(connection)) *)
| PLose (k : prog R).                                            (* an exception destroys the local variable [connection] *)
Arguments PRet {R}. Arguments PGet {R}. Arguments PReq {R}. Arguments PNew {R}. Arguments PGive {R}. Arguments PLose {R}.
Fixpoint pbind {A B} (p : prog A) (f : A -> prog B) : prog B :=
  match p with
  | PRet a => f a
  | PGet k => PGet (pbind k f)
  | PReq es k => PReq es (fun ok => pbind (k ok) f)
  | PNew g k => PNew g (fun ok id => pbind (k ok id) f)
  | PGive k => PGive (pbind k f)
  | PLose k => PLose (pbind k f)
  end.

(** the methods of an S3Sink, with exceptions *)
Definition SP (A : Type) : Type := s3sink -> prog (s3sink * outcome A).
Definition sret {A} (a : A) : SP A := fun s => PRet (s, Ok a).
Definition sout {A} (r : outcome A) : SP A := fun s => PRet (s, r).
Definition sbind {A B} (m : SP A) (f : A -> SP B) : SP B :=
  fun s => pbind (m s) (fun x => match snd x with Ok a => f a (fst x) | Throw e => PRet (fst x, Throw e) | UB => PRet (fst x, UB) | Hang => PRet (fst x, Hang) end).
Definition scatch {A} (m : SP A) (h : string -> SP A) : SP A :=
  fun s => pbind (m s) (fun x => match snd x with Throw e => h e (fst x) | r => PRet (fst x, r) end).
(** code that runs while the local variable [connection] holds a connection: an exception destroys it *)
Definition sholding {A} (m : SP A) : SP A :=
  fun s => pbind (m s) (fun x => match snd x with Throw e => PLose (PRet (fst x, Throw e)) | r => PRet (fst x, r) end).
Definition sget : SP s3sink := fun s => PRet (s, Ok s).
Definition sput (s : s3sink) : SP unit := fun _ => PRet (s, Ok tt).
Definition sconn : SP unit := fun s => PGet (PRet (s, Ok tt)).
Definition sgive : SP unit := fun s => PGive (PRet (s, Ok tt)).
Definition slose : SP unit := fun s => PLose (PRet (s, Ok tt)).
Definition sreq (es : list event) : SP bool := fun s => PReq es (fun ok => PRet (s, Ok ok)).
Definition snew (f : Z -> list event) : SP (bool * Z) := fun s => PNew f (fun ok id => PRet (s, Ok (ok, id))).
Definition sexpect (c : bool) (e : string) : SP unit := sout (if c then Ok tt else Throw e).
Declare Scope sp_scope.
Delimit Scope sp_scope with sp.
Notation "x <~ m ; f" := (sbind m (fun x => f)) (at level 61, m at next level, right associativity) : sp_scope.
Notation "m ;~ f" := (sbind m (fun _ => f)) (at level 61, right associativity) : sp_scope.
Open Scope sp_scope.

(** S3Connection::put_object (s3.connection.cpp:53-83) *)
Definition p_put (b k : string) (data : list Z) : SP bool :=
  sexpect (negb (String.eqb b "")) "Bucket name must not be empty." ;~
  sexpect (negb (String.eqb k "")) "Object name must not be empty." ;~
  sexpect (negb (zlen data =? 0)) "Data must not be empty." ;~
  sreq [EPut b k data].
(** S3Connection::create_multipart_object (s3.connection.cpp:111-136) *)
Definition p_create_multipart (b k : string) : SP Z :=
  sexpect (negb (String.eqb b "")) "Bucket name must not be empty." ;~
  sexpect (negb (String.eqb k "")) "Object name must not be empty." ;~
  r <~ snew (fun id => [EMpCreate b k id]) ;
  sexpect (fst r) "Upload id returned empty." ;~
  sret (snd r).
(** S3Connection::upload_multipart_object_part (s3.connection.cpp:138-181) *)
Definition p_upload_part (b k : string) (id n : Z) (data : list Z) : SP bool :=
  sexpect (negb (String.eqb b "")) "Bucket name must not be empty." ;~
  sexpect (negb (String.eqb k "")) "Object name must not be empty." ;~
  sexpect (negb (zlen data =? 0)) "Number of bytes must be positive." ;~
  sexpect (negb (n =? 0)) "Part number must be positive." ;~
  sreq [EMpPart b k id n data].
(** S3Connection::complete_multipart_object (s3.connection.cpp:183-215) *)
Definition p_complete (b k : string) (id : Z) (parts : list Z) : SP bool :=
  sexpect (negb (String.eqb b "")) "Bucket name must not be empty." ;~
  sexpect (negb (String.eqb k "")) "Object name must not be empty." ;~
  sexpect (negb (id =? 0)) "Upload id must not be empty." ;~
  sexpect (negb (zlen parts =? 0)) "Parts list must not be empty." ;~
  sreq [EMpComplete b k id parts].

(** S3Sink::create_multipart_upload_ (s3.sink.cpp:128-138) *)
Definition p_create_upload : SP unit :=
  s <~ sget ;
  sput (mks3 (s_bucket s) (s_key s) (s_buf s) (s_nbuf s) (s_nflush s) (Some (0, []))) ;~
  sconn ;~
  id <~ sholding (p_create_multipart (s_bucket s) (s_key s)) ;
  sput (mks3 (s_bucket s) (s_key s) (s_buf s) (s_nbuf s) (s_nflush s) (Some (id, []))) ;~
  sgive.
(** S3Sink::flush_part_ (s3.sink.cpp:140-187) *)
Definition p_flush_part : SP bool :=
  s0 <~ sget ;
  if s_nbuf s0 =? 0 then sret false
  else
    match s_mp s0 with Some _ => sret tt | None => p_create_upload end ;~
    sconn ;~
    s <~ sget ;
    match s_mp s with
    | None => slose ;~ sout UB        (* cannot happen: create_multipart_upload_ has set it *)
    | Some (id, parts) =>
        let n := zlen parts + 1 in
        ok <~ scatch (p_upload_part (s_bucket s) (s_key s) id n (slice (s_buf s) 0 (s_nbuf s))) (fun _ => sret false) ;
        sgive ;~
        sput (mks3 (s_bucket s) (s_key s) (s_buf s) 0 (u64 (s_nflush s + s_nbuf s)) (Some (id, if ok then parts ++ [n] else parts))) ;~
        sret ok
    end.
(** S3Sink::put_object_ (s3.sink.cpp:91-120) *)
Definition p_put_object : SP bool :=
  s <~ sget ;
  if s_nbuf s =? 0 then sret false
  else
    sconn ;~
    ok <~ scatch (p_put (s_bucket s) (s_key s) (slice (s_buf s) 0 (s_nbuf s))) (fun _ => sret false) ;
    (if ok then sput (mks3 (s_bucket s) (s_key s) (s_buf s) 0 (s_nbuf s) (s_mp s)) else sret tt) ;~
    sgive ;~
    sret ok.
(** S3Sink::finalize_multipart_upload_ (s3.sink.cpp:189-203) *)
Definition p_finalize : SP bool :=
  sconn ;~
  s <~ sget ;
  match s_mp s with
  | None => slose ;~ sout UB          (* cannot happen: flush_ has asked is_multipart_upload_() *)
  | Some (id, parts) =>
      ok <~ sholding (p_complete (s_bucket s) (s_key s) id parts) ;
      sgive ;~
      sret ok
  end.
(** S3Sink::flush_ (s3.sink.cpp:22-50) *)
Definition p_flush : SP bool :=
  s <~ sget ;
  ok <~ match s_mp s with
        | Some _ =>
            ok1 <~ (if 0 <? s_nbuf s then p_flush_part else sret true) ;
            if ok1 then p_finalize else sret false
        | None =>
            if 0 <? s_nbuf s then p_put_object else sret true
        end ;
  if ok then
    s' <~ sget ;
    sput (mks3 (s_bucket s') (s_key s') (s_buf s') 0 (s_nflush s') (s_mp s')) ;~ sret true
  else sret false.
(** the loop of S3Sink::write (s3.sink.cpp:68-88); [fuel] bounds the number of iterations *)
Fixpoint p_write_loop (fuel : nat) (data : list Z) : SP bool :=
  match fuel with
  | O => sout Hang
  | S f =>
      if zlen data =? 0 then sret true
      else
        s <~ sget ;
        if part_size <? s_nbuf s then sout UB
        else
          let n := Z.min (zlen data) (part_size - s_nbuf s) in
          sput (mks3 (s_bucket s) (s_key s) (write_at (s_buf s) (s_nbuf s) (firstn (Z.to_nat n) data)) (s_nbuf s + n) (s_nflush s) (s_mp s)) ;~
          ok <~ (if s_nbuf s + n =? part_size then p_flush_part else sret true) ;
          if ok then p_write_loop f (skipn (Z.to_nat n) data) else sret false
  end.
(** S3Sink::write (s3.sink.cpp:52-89) *)
Definition p_write (off : Z) (data : list Z) : SP bool :=
  if zlen data =? 0 then sret true
  else
    s <~ sget ;
    if off <? s_nflush s then sret false
    else
      sput (mks3 (s_bucket s) (s_key s) (s_buf s) (off - s_nflush s) (s_nflush s) (s_mp s)) ;~
      p_write_loop (2 * List.length data + 2) data.
(** writes at consecutive offsets; stops at the first that reports failure *)
Fixpoint p_write_all (off : Z) (ds : list (list Z)) : SP bool :=
  match ds with
  | [] => sret true
  | d :: l => ok <~ p_write off d ; if ok then p_write_all (off + zlen d) l else sret false
  end.

(** what a thread is asked to do; exceptions are caught (by the job, or by finalize_sink's caller) *)
Inductive task : Type :=
| TObject (b k : string) (ds : list (list Z))     (* a new S3Sink (s3.sink.cpp:10-20), the writes, finalize_sink (sink.cpp:4-18) *)
| TBucket (b : string).                           (* SinkCreator::bucket_exists_ (sink.creator.cpp:411-423) *)
Inductive result : Type :=
| RObject (r : outcome (bool * bool))             (* what the writes and the flush report *)
| RBucket (r : outcome bool).
Definition p_task (j : task) : prog result :=
  match j with
  | TObject b k ds =>
      if String.eqb b "" then PRet (RObject (Throw "Bucket name must not be empty"))
      else if String.eqb k "" then PRet (RObject (Throw "Object key must not be empty"))
      else pbind ((a <~ p_write_all 0 ds ; f <~ p_flush ; sret (a, f)) (mks3 b k [] 0 0 None)) (fun x => PRet (RObject (snd x)))
  | TBucket b =>
      if String.eqb b "" then PRet (RBucket (Throw "CHECK(!bucket_name.empty())"))
      else PGet (PReq [] (fun ok => PGive (PRet (RBucket (Ok ok)))))
  end.
Fixpoint p_tasks (l : list task) : prog (list result) :=
  match l with
  | [] => PRet []
  | j :: l => pbind (p_task j) (fun r => pbind (p_tasks l) (fun rs => PRet (r :: rs)))
  end.

(** *** the threads together *)
Section Machine.
Context {R : Type}.
Inductive thread : Type :=
| TRun (h : option nat) (p : prog R)       (* outside the pool, [h] is the connection it has *)
| THold (h : option nat) (p : prog R)      (* has connections_mutex_ *)
| TWait (p : prog R).                      (* waits on cv_ in get_connection (line 245) *)
Record cstate : Type := mkc {
  pool : list nat;                         (* connections_ *)
  cmutex : option nat;                     (* the thread that has connections_mutex_ *)
  threads : list thread;
  tick : nat;                              (* number of requests the server has handled *)
  lost : list nat                          (* connections destroyed by exceptions *)
}.
(** S3ConnectionPool::S3ConnectionPool (s3.connection.cpp:217-233), all n connections valid *)
Definition start (n : nat) (ps : list (prog R)) : cstate := mkc (seq 0 n) None (map (TRun None) ps) 0 [].

Inductive act : Type := AGet | AReq (ok : bool) (es : list event) | ANew (ok : bool) (id : Z) (es : list event) | AGive | ALose.
Inductive clabel : Type :=
| LTau (i : nat)                           (* takes the mutex, or falls asleep *)
| LDo (i c : nat) (a : act)                (* thread i, with connection c *)
| LWake (i : nat).                         (* a spurious wake-up *)
(** cv_.notify_one() *)
Inductive notified : list thread -> list thread -> Prop :=
| nt_one ts i p : nth_error ts i = Some (TWait p) -> notified ts (put ts i (TRun None p))
| nt_none ts : (forall p, ~ In (TWait p) ts) -> notified ts ts.
Definition wants_mutex (p : prog R) : bool := match p with PGet _ | PGive _ => true | _ => false end.
Inductive cstep : cstate -> clabel -> cstate -> Prop :=
(* std::unique_lock lock(connections_mutex_) (lines 244, 261), or the wait has been notified *)
| c_lock q ts n l i h p : nth_error ts i = Some (TRun h p) -> wants_mutex p = true ->
    cstep (mkc q None ts n l) (LTau i) (mkc q (Some i) (put ts i (THold h p)) n l)
(* get_connection (lines 245-255): the predicate holds *)
| c_take q c m ts n l i h k : nth_error ts i = Some (THold h (PGet k)) ->
    cstep (mkc (q ++ [c]) m ts n l) (LDo i c AGet) (mkc q None (put ts i (TRun (Some c) k)) n l)
(* get_connection (line 245): it does not *)
| c_sleep m ts n l i h k : nth_error ts i = Some (THold h (PGet k)) ->
    cstep (mkc [] m ts n l) (LTau i) (mkc [] None (put ts i (TWait (PGet k))) n l)
(* return_connection (lines 258-264) *)
| c_give q m ts ts' n l i c k : nth_error ts i = Some (THold (Some c) (PGive k)) -> notified (put ts i (TRun None k)) ts' ->
    cstep (mkc q m ts n l) (LDo i c AGive) (mkc (q ++ [c]) None ts' n l)
(* requests: the server may refuse any *)
| c_req q m ts n l i c es k ok : nth_error ts i = Some (TRun (Some c) (PReq es k)) ->
    cstep (mkc q m ts n l) (LDo i c (AReq ok es)) (mkc q m (put ts i (TRun (Some c) (k ok))) (S n) l)
| c_new q m ts n l i c f k ok : nth_error ts i = Some (TRun (Some c) (PNew f k)) ->
    cstep (mkc q m ts n l) (LDo i c (ANew ok (Z.of_nat n + 1) (f (Z.of_nat n + 1)))) (mkc q m (put ts i (TRun (Some c) (k ok (Z.of_nat n + 1)))) (S n) l)
(* ~unique_ptr<S3Connection> *)
| c_lose q m ts n l i c k : nth_error ts i = Some (TRun (Some c) (PLose k)) ->
    cstep (mkc q m ts n l) (LDo i c ALose) (mkc q m (put ts i (TRun None k)) n (c :: l))
| c_wake q m ts n l i p : nth_error ts i = Some (TWait p) ->
    cstep (mkc q m ts n l) (LWake i) (mkc q m (put ts i (TRun None p)) n l).
Inductive csteps : cstate -> list clabel -> cstate -> Prop :=
| cs_nil s : csteps s [] s
| cs_snoc s t s' x s'' : csteps s t s' -> cstep s' x s'' -> csteps s (t ++ [x]) s''.
End Machine.
Arguments thread : clear implicits.
Arguments cstate : clear implicits.
