(** Vocabulary of C15, C16, C17: one object written through a sink of the S3 store, and sequences of operations on sinks, under any
    pattern of failing requests. *)
Require Import ZArith List Bool String.
Require Import Verif.Base Verif.World.
Import ListNotations.
Open Scope string_scope.
Open Scope list_scope.
Open Scope Z_scope.

(** writes at consecutive offsets from [off]; stops at the first write that reports failure *)
Fixpoint write_all (E : env) (off : Z) (ds : list (list Z)) : M SW bool :=
  match ds with
  | [] => ret true
  | d :: l => ok <- s3_write E off d ;; if ok then write_all E (off + zlen d) l else ret false
  end.
(** a new sink, the writes, the final flush; the results of the writes and of the flush *)
Definition object_session (E : env) (b k : string) (ds : list (list Z)) : M world (bool * bool) :=
  fun w => match s3_sink b k w with
           | (w1, Ok s) => let '((_, w2), r) := (a <- write_all E 0 ds ;; f <- s3_flush E ;; ret (a, f)) (s, w1) in (w2, r)
           | (w1, Throw m) => (w1, Throw m)
           | (w1, UB) => (w1, UB)
           | (w1, Hang) => (w1, Hang)
           end.

(** The requests that store [c] under (b, k): none if it is empty, one put if it is shorter than a part, else an upload in parts numbered
    1, 2, ..., all of 5 MiB but the last, which is not longer and not empty. *)
Definition part_events (b k : string) (id : Z) (ps : list (list Z)) : list event :=
  map (fun i => EMpPart b k id (Z.of_nat i + 1) (nth i ps [])) (seq 0 (List.length ps)).
Definition numbers (n : nat) : list Z := map (fun i => Z.of_nat i + 1) (seq 0 n).
Definition pieces (ps : list (list Z)) : Prop :=
  ps <> [] /\ Forall (fun p => zlen p = 5 * 2 ^ 20) (removelast ps) /\ 0 < zlen (last ps []) <= 5 * 2 ^ 20.
Definition requests (b k : string) (c : list Z) (evs : list event) : Prop :=
  if zlen c =? 0 then evs = []
  else if zlen c <? 5 * 2 ^ 20 then evs = [EPut b k c]
  else exists id ps, List.concat ps = c /\ pieces ps /\
         evs = EMpCreate b k id :: part_events b k id ps ++ [EMpComplete b k id (numbers (List.length ps))].

(** Operations on any sinks; a caller catches exceptions, as the worker jobs and the metadata writers do. [OFlush] is the flush of
    finalize_sink. *)
Inductive op : Type := OWrite (i : nat) (off : Z) (data : list Z) | OFlush (i : nat) | OBucket (b : string).
Definition sinks := nat -> s3sink.
Definition run_op (E : env) (o : op) (ss : sinks) (w : world) : (sinks * world) * outcome bool :=
  match o with
  | OWrite i off d => let '((s', w'), r) := s3_write E off d (ss i, w) in ((fun j => if Nat.eqb j i then s' else ss j, w'), r)
  | OFlush i => let '((s', w'), r) := s3_flush E (ss i, w) in ((fun j => if Nat.eqb j i then s' else ss j, w'), r)
  | OBucket b => let '(w', r) := bucket_exists E b w in ((ss, w'), r)
  end.
(** the results of the operations up to and including the first that does not come back *)
Fixpoint run_ops (E : env) (l : list op) (ss : sinks) (w : world) : world * list (outcome bool) :=
  match l with
  | [] => (w, [])
  | o :: l =>
      match run_op E o ss w with
      | ((_, w'), Hang) => (w', [Hang])
      | ((_, w'), UB) => (w', [UB])
      | ((ss', w'), r) => let '(w'', rs) := run_ops E l ss' w' in (w'', r :: rs)
      end
  end.
Definition threw (r : outcome bool) : bool := match r with Throw _ => true | _ => false end.
