(** * Successive calls of NextRandom *)
From Coq Require Import ZArith List.
Import ListNotations.
From Verif.Lib Require Import Go.
From Verif.Model Require Import ModelUtil.

(** What [n] successive calls NextRandom(v) return when the package variable is [x] before the first. *)
Fixpoint results (x v : Z) (n : nat) : list (outcome Z) :=
  match n with
  | O => []
  | S n' => let (x', r) := next_random x v in r :: results x' v n'
  end.

(** How many elements of a list satisfy a test. *)
Definition times {A} (test : A -> bool) (l : list A) : Z := Z.of_nat (length (filter test l)).

(** The call returned [r]. *)
Definition returned_value (r : Z) (o : outcome Z) : bool := match o with Ret y => (y =? r)%Z | _ => false end.
