(** * Specification: binary trees over word ids, their cost, paths in a parent-pointer structure *)
From Coq Require Import List Arith.
Import ListNotations.

(** Any binary tree with word ids at its leaves. *)
Inductive btree := BLeaf (id : nat) | BNode (l r : btree).

Fixpoint bleaves (t : btree) : list nat :=
  match t with BLeaf i => [i] | BNode l r => bleaves l ++ bleaves r end.

(** Sum over the leaves of frequency times (depth of the leaf + [d]). *)
Fixpoint bcost (freq : nat -> nat) (d : nat) (t : btree) : nat :=
  match t with
  | BLeaf i => freq i * d
  | BNode l r => bcost freq (S d) l + bcost freq (S d) r
  end.

(** [p] is the path from a root (a node without parent) down to [n]. *)
Definition root_path (parent : nat -> option nat) (p : list nat) (n : nat) : Prop :=
  (exists root rest, p = root :: rest /\ parent root = None) /\
  (forall l1 a b l2, p = l1 ++ a :: b :: l2 -> parent b = Some a) /\
  (exists init, p = init ++ [n]).

(** [x] is a prefix of [y]. *)
Definition prefix {A} (x y : list A) : Prop := exists z, y = x ++ z.
