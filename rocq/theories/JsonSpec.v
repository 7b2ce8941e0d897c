(** A JSON reader (RFC 8259 without exponents, negative numbers and \u escapes above 7F, none of which
    it accepts), used to state what a metadata document says.  Independent of the model. *)
Require Import ZArith List Bool String Ascii.
Import ListNotations.
Open Scope string_scope.
Open Scope Z_scope.

(** A number is its integer part and the text of its fraction ("" if there is none). *)
Inductive jv : Type :=
| VNull | VTrue | VFalse
| VNum (z : Z) (frac : string)
| VStr (s : string)
| VArr (l : list jv)
| VObj (l : list (string * jv)).

Definition code (c : ascii) : Z := Z.of_nat (nat_of_ascii c).
Definition is_ws (c : ascii) : bool := (code c =? 32) || (code c =? 10) || (code c =? 13) || (code c =? 9).
Definition is_dig (c : ascii) : bool := (48 <=? code c) && (code c <=? 57).

Fixpoint skip_ws (s : string) : string :=
  match s with String c r => if is_ws c then skip_ws r else s | "" => "" end.

(** digits, their value and the rest *)
Fixpoint digits (s : string) (acc : Z) : Z * string :=
  match s with
  | String c r => if is_dig c then digits r (10 * acc + (code c - 48)) else (acc, s)
  | "" => (acc, "")
  end.
Fixpoint digit_text (s : string) : string * string :=
  match s with
  | String c r => if is_dig c then let '(t, q) := digit_text r in (String c t, q) else ("", s)
  | "" => ("", "")
  end.
(** no leading zeros: a number that starts with 0 has no further digit *)
Definition number (s : string) : option (jv * string) :=
  match s with
  | String c r =>
      if negb (is_dig c) then None
      else let '(z, q) := digits s 0 in
           if (code c =? 48) && (match r with String d _ => is_dig d | "" => false end) then None
           else match q with
                | String p q' =>
                    if code p =? 46 then
                      match digit_text q' with
                      | ("", _) => None
                      | (t, q'') => Some (VNum z t, q'')
                      end
                    else Some (VNum z "", q)
                | "" => Some (VNum z "", q)
                end
  | "" => None
  end.

Definition hex (c : ascii) : option Z :=
  let n := code c in
  if (48 <=? n) && (n <=? 57) then Some (n - 48)
  else if (97 <=? n) && (n <=? 102) then Some (n - 87)
  else if (65 <=? n) && (n <=? 70) then Some (n - 55)
  else None.

(** the part of a string after its opening quote *)
Fixpoint chars (s : string) : option (string * string) :=
  match s with
  | "" => None
  | String c r =>
      let add (d : Z) (r' : string) :=
        match chars r' with Some (t, q) => Some (String (ascii_of_nat (Z.to_nat d)) t, q) | None => None end in
      if code c =? 34 then Some ("", r)
      else if code c =? 92 then
        match r with
        | "" => None
        | String e r1 =>
            let n := code e in
            if (n =? 34) || (n =? 92) || (n =? 47) then add n r1
            else if n =? 98 then add 8 r1
            else if n =? 116 then add 9 r1
            else if n =? 110 then add 10 r1
            else if n =? 102 then add 12 r1
            else if n =? 114 then add 13 r1
            else if n =? 117 then
              match r1 with
              | String h1 (String h2 (String h3 (String h4 r5))) =>
                  match hex h1, hex h2, hex h3, hex h4 with
                  | Some 0, Some 0, Some a, Some b => if a <? 8 then add (16 * a + b) r5 else None
                  | _, _, _, _ => None
                  end
              | _ => None
              end
            else None
        end
      else if code c <? 32 then None
      else add (code c) r
  end.

Definition literal (s : string) : option (jv * string) :=
  if String.prefix "null" s then Some (VNull, substring 4 (String.length s - 4) s)
  else if String.prefix "true" s then Some (VTrue, substring 4 (String.length s - 4) s)
  else if String.prefix "false" s then Some (VFalse, substring 5 (String.length s - 5) s)
  else None.

(** [fuel] bounds the nesting and the number of elements; the length of the text is always enough *)
Fixpoint value (fuel : nat) (s : string) : option (jv * string) :=
  match fuel with
  | O => None
  | S f =>
      match skip_ws s with
      | "" => None
      | String c r =>
          if code c =? 34 then
            match chars r with Some (t, q) => Some (VStr t, q) | None => None end
          else if code c =? 91 then
            match skip_ws r with
            | String d q => if code d =? 93 then Some (VArr [], q)
                            else match elements f r with Some (l, q') => Some (VArr l, q') | None => None end
            | "" => None
            end
          else if code c =? 123 then
            match skip_ws r with
            | String d q => if code d =? 125 then Some (VObj [], q)
                            else match members f r with Some (l, q') => Some (VObj l, q') | None => None end
            | "" => None
            end
          else if is_dig c then number (String c r)
          else literal (String c r)
      end
  end
with elements (fuel : nat) (s : string) : option (list jv * string) :=
  match fuel with
  | O => None
  | S f =>
      match value f s with
      | None => None
      | Some (v, r) =>
          match skip_ws r with
          | String d q =>
              if code d =? 93 then Some ([v], q)
              else if code d =? 44 then
                match elements f q with Some (l, q') => Some (v :: l, q') | None => None end
              else None
          | "" => None
          end
      end
  end
with members (fuel : nat) (s : string) : option (list (string * jv) * string) :=
  match fuel with
  | O => None
  | S f =>
      match skip_ws s with
      | String c r =>
          if code c =? 34 then
            match chars r with
            | None => None
            | Some (k, r1) =>
                match skip_ws r1 with
                | String d r2 =>
                    if code d =? 58 then
                      match value f r2 with
                      | None => None
                      | Some (v, r3) =>
                          match skip_ws r3 with
                          | String d q =>
                              if code d =? 125 then Some ([(k, v)], q)
                              else if code d =? 44 then
                                match members f q with Some (l, q') => Some ((k, v) :: l, q') | None => None end
                              else None
                          | "" => None
                          end
                      end
                    else None
                | "" => None
                end
            end
          else None
      | "" => None
      end
  end.

Definition bytes_text (l : list Z) : string := string_of_list_ascii (List.map (fun z => ascii_of_nat (Z.to_nat z)) l).

(** [json_of bytes = Some v]: the bytes are one JSON text, whose value is [v] *)
Definition json_of (l : list Z) : option jv :=
  let s := bytes_text l in
  match value (S (2 * String.length s)) s with
  | Some (v, r) => match skip_ws r with "" => Some v | _ => None end
  | None => None
  end.

(** member [k] of an object *)
Fixpoint lookup (k : string) (l : list (string * jv)) : option jv :=
  match l with
  | [] => None
  | (k', v) :: l' => if String.eqb k k' then Some v else lookup k l'
  end.
Definition field (k : string) (v : jv) : option jv := match v with VObj l => lookup k l | _ => None end.
(** no key twice, as JSON readers expect *)
Fixpoint keys_unique (v : jv) : Prop :=
  match v with
  | VObj l => NoDup (map fst l) /\ (fix go (l : list (string * jv)) : Prop := match l with [] => True | (_, x) :: l' => keys_unique x /\ go l' end) l
  | VArr l => (fix go (l : list jv) : Prop := match l with [] => True | x :: l' => keys_unique x /\ go l' end) l
  | _ => True
  end.
(** an integer / an array of integers *)
Definition vint (z : Z) : jv := VNum z "".
Definition vints (l : list Z) : jv := VArr (map vint l).
