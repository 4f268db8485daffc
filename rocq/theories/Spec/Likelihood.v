(** * Specification: the probability that hierarchical softmax gives to a word *)
From Coq Require Import List Reals ZArith.
From Verif.Lib Require Import Go.
From Verif.Model Require Import Huffman.
From Verif.Spec Require Import Logistic.
Import ListNotations.
Local Open Scope R_scope.

(** The probability of going down a path, where [s p] is the probability of leaving the inner node [p]
    towards its child with code 0. *)
Fixpoint path_prob (s : nat -> R) (code : nat -> nat) (path : list nat) : R :=
  match path with
  | p :: ((q :: _) as rest) => (if Nat.eqb (code q) 0 then s p else 1 - s p) * path_prob s code rest
  | _ => 1
  end.

(** The probability of word [i] in the tree [h], along the path that GetPath returns for a limit. *)
Definition prob_of (s : nat -> R) (h : heap) (i : nat) (depth : Z) : R :=
  match snd (get_path h i depth) with Ret p => path_prob s (fun y => hn_code (hget h y)) p | _ => 0 end.

(** [s] with the score [t] at node [p]. *)
Definition at_score (s : nat -> R) (p : nat) (t : R) : nat -> R := fun y => if Nat.eqb y p then logistic t else s y.

Definition rsum (l : list R) : R := fold_right Rplus 0 l.
