(** Vocabulary for append calls whose sizes are not whole frames. *)
Require Import ZArith List Bool.
Require Import Verif.Base.
Import ListNotations.
Open Scope Z_scope.

(** the whole frames of [f] bytes in [d]; bytes after the last whole frame are left out *)
Definition whole (f : Z) (d : list Z) : list (list Z) := map (fun i => slice d (i * f) f) (zseq (zlen d / f)).

(** What ZarrStream_append does with [d] when [o] bytes of an unfinished frame are waiting: the frames it
    writes, the bytes waiting afterwards, and the value of *bytes_out; or None, where it reads behind
    [d]. This is what the code does, not what it should do: a frame that is begun in one call and finished in
    another is written from the start of the later call's buffer, and the bytes that finish it count
    twice. *)
Definition takes (f o : Z) (d : list Z) : option (list (list Z) * Z * Z) :=
  let n := zlen d in
  let k := f - o in
  if o =? 0 then Some (whole f d, n mod f, n)
  else if n <? k then Some ([], o + n, n)
  else if n <? f then None
  else if n <? 2 * k then Some ([slice d 0 f], 0, 2 * k)
  else Some (slice d 0 f :: whole f (slice d k (n - 2 * k)), (n - 2 * k) mod f, n).

(** the same for a list of calls: all frames, waiting bytes, the values of *bytes_out *)
Fixpoint takes_all (f o : Z) (calls : list (list Z)) : option (list (list Z) * Z * list Z) :=
  match calls with
  | [] => Some ([], o, [])
  | d :: l => match takes f o d with
              | None => None
              | Some (G, o1, b) =>
                  match takes_all f o1 l with
                  | None => None
                  | Some (G', o', bs) => Some (G ++ G', o', b :: bs)
                  end
              end
  end.

(** no call finishes a frame begun in an earlier one *)
Fixpoint never_finishes (f o : Z) (calls : list (list Z)) : Prop :=
  match calls with
  | [] => True
  | d :: l => if o =? 0 then never_finishes f (zlen d mod f) l else zlen d < f - o /\ never_finishes f (o + zlen d) l
  end.
