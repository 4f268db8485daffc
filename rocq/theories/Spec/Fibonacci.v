(** * Specification: the Fibonacci numbers 0, 1, 1, 2, 3, 5, 8, ... *)
From Coq Require Import ZArith.
Local Open Scope Z_scope.

Fixpoint fib (n : nat) : Z :=
  match n with
  | O => 0
  | S O => 1
  | S (S k as m) => fib m + fib k
  end.
