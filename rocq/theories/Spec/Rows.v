(** * Specification: one callback call per row, in order, on a zero row *)
From Coq Require Import List ZArith.
From Verif.Lib Require Import F64.
Import ListNotations.

Fixpoint row_calls {St} (fn : St -> Z -> list f64 -> St * list f64) (col : nat)
  (n : nat) (i : Z) (st : St) : St * list (list f64) :=
  match n with
  | O => (st, [])
  | S k => let '(st1, row) := fn st i (repeat fzero col) in
           let '(st2, rows) := row_calls fn col k (i + 1)%Z st1 in
           (st2, row :: rows)
  end.

(** A matrix given by its rows, all of length [col]. *)
From Verif.Model Require Import Matrix.
Definition of_rows (col : nat) (rows : list (list f64)) : matrix :=
  Mat (concat rows) (Z.of_nat (length rows)) (Z.of_nat col).
Definition all_len (n : nat) (rows : list (list f64)) : Prop := Forall (fun r => length r = n) rows.
