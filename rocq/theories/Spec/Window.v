(** * Pairs of words at most [n] positions apart *)
From Verif.Lib Require Import Go.

(** All pairs (w_i, w_j) with i < j <= i + n, in the order of i, then j. *)
Fixpoint window_pairs {A} (n : nat) (ws : list A) : list (A * A) :=
  match ws with
  | [] => []
  | w :: t => map (pair w) (firstn n t) ++ window_pairs n t
  end.

(** The same, for the first [k] positions i only. *)
Fixpoint window_pairs_upto {A} (k n : nat) (ws : list A) : list (A * A) :=
  match k, ws with
  | S k', w :: t => map (pair w) (firstn n t) ++ window_pairs_upto k' n t
  | _, _ => []
  end.
