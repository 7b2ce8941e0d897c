(** nlohmann::json values and dump(4), as used by the metadata writers.
    The library is modelled, not its source: objects are std::map, so keys are
    written in increasing order (the model builds its objects in that order). *)
Require Import ZArith List Bool String Ascii.
Require Import Verif.Base.
Import ListNotations.
Open Scope string_scope.
Open Scope Z_scope.

Inductive json : Type :=
| JNull
| JInt (z : Z)                       (* non-negative integers only *)
| JDbl (z : Z)                       (* a double holding the non-negative integer z, printed "z.0" *)
| JStr (s : string)
| JArr (l : list json)
| JObj (l : list (string * json)).

Definition nl : string := String (ascii_of_nat 10) EmptyString.
Definition dq : string := String (ascii_of_nat 34) EmptyString.

Fixpoint spaces (n : nat) : string :=
  match n with O => "" | S k => " " ++ spaces k end.

Definition hexd (n : nat) : ascii :=
  if Nat.ltb n 10 then ascii_of_nat (48 + n) else ascii_of_nat (87 + n).

(** serializer::dump_escaped for single-byte characters. Bytes >= 0x80 are copied
    (valid UTF-8); the library throws on invalid UTF-8, which is not modelled. *)
Definition escape_char (c : ascii) : string :=
  let n := nat_of_ascii c in
  if Nat.eqb n 34 then "\" ++ dq
  else if Nat.eqb n 92 then "\\"
  else if Nat.eqb n 8 then "\b"
  else if Nat.eqb n 9 then "\t"
  else if Nat.eqb n 10 then "\n"
  else if Nat.eqb n 12 then "\f"
  else if Nat.eqb n 13 then "\r"
  else if Nat.ltb n 32 then
    "\u00" ++ String (hexd (Nat.div n 16)) (String (hexd (Nat.modulo n 16)) "")
  else String c "".

Fixpoint escape (s : string) : string :=
  match s with
  | EmptyString => ""
  | String c s' => escape_char c ++ escape s'
  end.

Definition quote (s : string) : string := dq ++ escape s ++ dq.

(** dump(4) at indentation [ind] *)
Fixpoint dump_at (ind : nat) (j : json) : string :=
  match j with
  | JNull => "null"
  | JInt z => dec z
  | JDbl z => dec z ++ ".0"
  | JStr s => quote s
  | JArr [] => "[]"
  | JArr l =>
      "[" ++ nl ++
      (fix go (l : list json) : string :=
         match l with
         | [] => ""
         | [x] => spaces (ind + 4) ++ dump_at (ind + 4) x
         | x :: l' => spaces (ind + 4) ++ dump_at (ind + 4) x ++ "," ++ nl ++ go l'
         end) l
      ++ nl ++ spaces ind ++ "]"
  | JObj [] => "{}"
  | JObj l =>
      "{" ++ nl ++
      (fix go (l : list (string * json)) : string :=
         match l with
         | [] => ""
         | [(k, x)] => spaces (ind + 4) ++ quote k ++ ": " ++ dump_at (ind + 4) x
         | (k, x) :: l' =>
             spaces (ind + 4) ++ quote k ++ ": " ++ dump_at (ind + 4) x ++ "," ++ nl ++ go l'
         end) l
      ++ nl ++ spaces ind ++ "}"
  end.

Definition dump (j : json) : string := dump_at 0 j.
