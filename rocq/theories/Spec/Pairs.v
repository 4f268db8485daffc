(** * Counting unordered pairs *)
From Verif.Lib Require Import Go.

Section Pairs.
  Context {A : Type} (eqd : forall x y : A, {x = y} + {x <> y}).

  Definition same_pair (p q : A * A) : bool :=
    let (a, b) := p in let (c, d) := q in
    (if eqd a c then if eqd b d then true else false else false)
    || (if eqd a d then if eqd b c then true else false else false).

  (** How many elements of [l] are the unordered pair {a, b}. *)
  Definition pair_count (a b : A) (l : list (A * A)) : nat :=
    length (filter (same_pair (a, b)) l).
End Pairs.
