(** * Specification vocabulary about word lists (no reference to the model). *)
From Verif.Lib Require Import Go.

(** How many times [w] occurs in [ws]. *)
Definition occurrences (w : gostring) (ws : list gostring) : nat :=
  count_occ gostring_eq_dec ws w.

(** The distinct words of [ws], in order of first appearance. *)
Fixpoint distinct (ws : list gostring) : list gostring :=
  match ws with
  | [] => []
  | w :: ws' => w :: remove gostring_eq_dec w (distinct ws')
  end.

(** Position of the first [w] in [l]. *)
Fixpoint position (w : gostring) (l : list gostring) : nat :=
  match l with
  | [] => 0
  | v :: l' => if gostring_eq_dec w v then 0 else S (position w l')
  end.

(** The id of [w] in a text: its position among the distinct words. *)
Definition word_id (ws : list gostring) (w : gostring) : nat := position w (distinct ws).
