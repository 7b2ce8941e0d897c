(** Vocabulary of C39 and C40: sequences of calls of the C interface that need no stream. *)
Require Import ZArith List Bool String.
Require Import Verif.Base Verif.World Verif.Api.
Import ListNotations.
Open Scope Z_scope.

(** ** C39: calls on any number of settings structs *)
(** [CCreate i mem n]: ZarrStreamSettings_create_dimension_array on struct [i]; [mem] = the allocator has memory.
    [CDestroy i]: ZarrStreamSettings_destroy_dimension_array on struct [i]. *)
Inductive call : Type := CCreate (i : nat) (mem : bool) (n : Z) | CDestroy (i : nat).
(** the arrays that are live, and the fields of every struct *)
Definition memory := (heap * (nat -> dimfields))%type.
(** the status a call returns, if it returns one *)
Definition do_call (c : call) (m : memory) : outcome (memory * option Z) :=
  let put i f := fun j => if Nat.eqb j i then f else snd m j in
  match c with
  | CCreate i mem n => match create_dims mem n (fst m, snd m i) with
                       | ((h, f), Ok r) => Ok ((h, put i f), Some r)
                       | (_, _) => UB
                       end
  | CDestroy i => match destroy_dims (fst m, snd m i) with
                  | ((h, f), Ok _) => Ok ((h, put i f), None)
                  | (_, _) => UB
                  end
  end.
Fixpoint do_calls (l : list call) (m : memory) : outcome memory :=
  match l with [] => Ok m | c :: l => match do_call c m with Ok (m', _) => do_calls l m' | _ => UB end end.
(** zero-initialised structs, nothing allocated *)
Definition fresh : memory := (mkheap [] 1, fun _ => mkdf None 0).

(** The live arrays are exactly those the structs point to, each with the size the struct says, and no two structs share one. *)
Definition owned (m : memory) : Prop :=
  NoDup (map fst (h_live (fst m))) /\
  (forall p n, In (p, n) (h_live (fst m)) <-> exists i, snd m i = mkdf (Some p) n) /\
  (forall i j p n n', snd m i = mkdf (Some p) n -> snd m j = mkdf (Some p) n' -> i = j).

(** ** C40 *)
(** the level after a sequence of Zarr_set_log_level calls *)
Definition level_after (l : list Z) (cur : Z) : Z := fold_left (fun c x => snd (set_log_level c x)) l cur.
Definition valid_level (x : Z) : Prop := 0 <= x <= 4.
