(** Machine integers, outcomes, a state monad and byte buffers used by the model.
    Nothing here is specific to acquire-zarr. *)
Require Import ZArith List Bool String Ascii.
Import ListNotations.
Open Scope Z_scope.

#[global] Arguments Z.mul : simpl never.
#[global] Arguments Z.add : simpl never.
#[global] Arguments Z.sub : simpl never.
#[global] Arguments Z.pow : simpl never.
#[global] Arguments Z.of_nat : simpl never.
#[global] Arguments Z.to_nat : simpl never.

(** C++ unsigned arithmetic wraps: an expression of type uint32_t / size_t is
    written in the model as [u32 e] / [u64 e]. *)
Definition u32 (x : Z) : Z := x mod 2 ^ 32.
Definition u64 (x : Z) : Z := x mod 2 ^ 64.

(** static_cast<long long>(size_t) (two's complement). *)
Definition s64 (x : Z) : Z :=
  let y := x mod 2 ^ 64 in if y <? 2 ^ 63 then y else y - 2 ^ 64.

(** How a call ends.
    - [Ok a]   returns [a];
    - [Throw m] leaves by a C++ exception whose message is [m];
    - [UB]     undefined behaviour (out-of-range access, division by zero, ...);
    - [Hang]   never returns (infinite loop, or blocked for ever). *)
Inductive outcome (A : Type) : Type :=
| Ok (a : A)
| Throw (m : string)
| UB
| Hang.
Arguments Ok {A}. Arguments Throw {A}. Arguments UB {A}. Arguments Hang {A}.

Definition obind {A B} (m : outcome A) (f : A -> outcome B) : outcome B :=
  match m with
  | Ok a => f a
  | Throw s => Throw s
  | UB => UB
  | Hang => Hang
  end.

Notation "'let?' x := a 'in' b" := (obind a (fun x => b))
  (at level 200, x pattern, a at level 100, b at level 200).

(** Left-to-right loop that stops at the first non-[Ok] outcome. *)
Fixpoint ofold {A B} (f : B -> A -> outcome B) (l : list A) (b : B) : outcome B :=
  match l with
  | [] => Ok b
  | a :: l' => let? b' := f b a in ofold f l' b'
  end.

Fixpoint omap {A B} (f : A -> outcome B) (l : list A) : outcome (list B) :=
  match l with
  | [] => Ok []
  | a :: l' => let? b := f a in let? bs := omap f l' in Ok (b :: bs)
  end.

(** State monad over [S]; the state survives a [Throw]. *)
Definition M (S A : Type) : Type := S -> S * outcome A.

Definition ret {S A} (a : A) : M S A := fun s => (s, Ok a).
Definition bind {S A B} (m : M S A) (f : A -> M S B) : M S B :=
  fun s => match m s with
           | (s', Ok a) => f a s'
           | (s', Throw e) => (s', Throw e)
           | (s', UB) => (s', UB)
           | (s', Hang) => (s', Hang)
           end.
Definition throwM {S A} (e : string) : M S A := fun s => (s, Throw e).
Definition ubM {S A} : M S A := fun s => (s, UB).
Definition hangM {S A} : M S A := fun s => (s, Hang).
Definition liftM {S A} (o : outcome A) : M S A := fun s => (s, o).
Definition getM {S} : M S S := fun s => (s, Ok s).
Definition putM {S} (s' : S) : M S unit := fun _ => (s', Ok tt).
Definition modM {S} (f : S -> S) : M S unit := fun s => (f s, Ok tt).
(** try { m } catch (const std::exception&) { h what() } ; UB and Hang are not caught *)
Definition catchM {S A} (m : M S A) (h : string -> M S A) : M S A :=
  fun s => match m s with
           | (s', Throw e) => h e s'
           | r => r
           end.
(** EXPECT / CHECK (macros.hh:6-27): throw std::runtime_error when the condition is false. *)
Definition expectM {S} (c : bool) (e : string) : M S unit :=
  if c then ret tt else throwM e.

Notation "x <- a ;; b" := (bind a (fun x => b))
  (at level 61, a at next level, right associativity).
Notation "' p <- a ;; b" := (bind a (fun p => b))
  (at level 61, p pattern, a at next level, right associativity).
Notation "a ;;; b" := (bind a (fun _ => b)) (at level 61, right associativity).

Fixpoint mfold {S A B} (f : B -> A -> M S B) (l : list A) (b : B) : M S B :=
  match l with
  | [] => ret b
  | a :: l' => b' <- f b a ;; mfold f l' b'
  end.

Fixpoint miter {S A} (f : A -> M S unit) (l : list A) : M S unit :=
  match l with
  | [] => ret tt
  | a :: l' => f a ;;; miter f l'
  end.

(** [0; 1; ...; n-1] *)
Definition zseq (n : Z) : list Z := List.map Z.of_nat (List.seq 0 (Z.to_nat n)).

(** Length of a list as an integer. *)
Definition zlen {A} (l : list A) : Z := Z.of_nat (List.length l).

(** Byte [i] of a buffer. *)
Definition getb (l : list Z) (i : Z) : Z := List.nth (Z.to_nat i) l 0.

(** [n] copies. *)
Definition zrep {A} (a : A) (n : Z) : list A := List.repeat a (Z.to_nat n).

(** buffer[off .. off+len) := data *)
Definition splice (buf : list Z) (off : Z) (data : list Z) : list Z :=
  (firstn (Z.to_nat off) buf ++ data ++ skipn (Z.to_nat off + List.length data) buf)%list.

(** sub-span [off, off+n) *)
Definition slice (buf : list Z) (off n : Z) : list Z :=
  firstn (Z.to_nat n) (skipn (Z.to_nat off) buf).

Definition upd {A} (l : list A) (i : nat) (a : A) : list A :=
  (firstn i l ++ match skipn i l with [] => [] | _ :: t => a :: t end)%list.

(** std::to_string of a non-negative integer. *)
Definition digit (d : Z) : ascii := ascii_of_nat (48 + Z.to_nat d).
Fixpoint dec_aux (fuel : nat) (n : Z) (acc : string) : string :=
  match fuel with
  | O => acc
  | S f => let acc' := String (digit (n mod 10)) acc in
           if n / 10 =? 0 then acc' else dec_aux f (n / 10) acc'
  end.
Definition dec (n : Z) : string := dec_aux (S (Z.to_nat (Z.log2 n))) n "".

(** The bytes of a string. *)
Definition bytes_of_string (s : string) : list Z :=
  List.map (fun c => Z.of_nat (nat_of_ascii c)) (list_ascii_of_string s).

(** Little-endian encoding of a 64-bit word. *)
Fixpoint le_bytes (n : nat) (x : Z) : list Z :=
  match n with
  | O => []
  | S k => x mod 256 :: le_bytes k (x / 256)
  end.
Fixpoint le_value (l : list Z) : Z :=
  match l with
  | [] => 0
  | b :: l' => b + 256 * le_value l'
  end.
