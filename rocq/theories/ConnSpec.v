(** Vocabulary of C64: what threads that share the S3 connections do and find. *)
Require Import ZArith List Bool String.
Require Import Verif.Base Verif.World Verif.S3Spec Verif.Conn.
Import ListNotations.
Open Scope list_scope.
Open Scope Z_scope.

(** what thread [i] did; the answers it got; what the server accepted from it *)
Definition did (i : nat) (t : list clabel) : list act := flat_map (fun x => match x with LDo j _ a => if Nat.eqb j i then [a] else [] | _ => [] end) t.
Definition answer (a : act) : list bool := match a with AReq ok _ => [ok] | ANew ok _ _ => [ok] | _ => [] end.
Definition accepted (a : act) : list event := match a with AReq true es => es | ANew true _ es => es | _ => [] end.
Definition answers (i : nat) (t : list clabel) : list bool := flat_map answer (did i t).
Definition uploads (i : nat) (t : list clabel) : list event := flat_map accepted (did i t).
(** what the server accepted from all threads, in the order in which it did *)
Definition all_uploads (t : list clabel) : list event := flat_map (fun x => match x with LDo _ _ a => accepted a | _ => [] end) t.
(** no request of any thread was refused *)
Definition none_refused (t : list clabel) : Prop := forall i c a, In (LDo i c a) t -> ~ In false (answer a).
Definition spurious (t : list clabel) : nat := List.length (filter (fun x => match x with LWake _ => true | _ => false end) t).
(** thread [i] gives connection [c] back, or destroys it *)
Definition releases (i c : nat) (x : clabel) : Prop := x = LDo i c AGive \/ x = LDo i c ALose.

Definition finished {R} (s : cstate R) (i : nat) (r : R) : Prop := nth_error (threads s) i = Some (TRun None (PRet r)).
Definition sleeping {R} (s : cstate R) (i : nat) : Prop := exists p, nth_error (threads s) i = Some (TWait p).
(** threads that are awake and will look for a connection next *)
Definition looks {R} (x : thread R) : bool := match x with TRun _ (PGet _) | THold _ (PGet _) => true | _ => false end.
(** the connections threads have *)
Definition has {R} (x : thread R) : list nat := match x with TRun (Some c) _ | THold (Some c) _ => [c] | _ => [] end.
Definition in_use {R} (s : cstate R) : list nat := flat_map has (threads s).

(** What the task does in the sequential model, on a machine of its own where requests are answered by [oks]: it stores [es] and reports [r]. *)
Definition alone (j : task) (oks : list bool) (es : list event) (r : result) : Prop :=
  exists E w w', w_trace w = [] /\ (0 < w_conns w)%nat /\ (forall k, e_s3 E k = nth (k - w_tick w) oks true) /\ w_trace w' = es /\
    match j with
    | TObject b k ds => exists o, object_session E b k ds w = (w', o) /\ r = RObject o
    | TBucket b => exists o, bucket_exists E b w = (w', o) /\ r = RBucket o
    end.
(** the same for several tasks, one after the other *)
Fixpoint one_by_one (l : list task) (oks : list bool) (es : list event) (rs : list result) : Prop :=
  match l, rs with
  | [], [] => oks = [] /\ es = []
  | j :: l, r :: rs => exists o1 o2 e1 e2, oks = o1 ++ o2 /\ es = e1 ++ e2 /\ alone j o1 e1 r /\ one_by_one l o2 e2 rs
  | _, _ => False
  end.
(** the objects a task writes *)
Definition keys (j : task) : list (string * string) := match j with TObject b k _ => [(b, k)] | TBucket _ => [] end.
