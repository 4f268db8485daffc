(** * Updating one pair again and again *)
From Coq Require Import Reals List ZArith.
From Verif.Lib Require Import Go F64 F64Facts.
From Verif.Spec Require Import Cosine Cells Residual.
Local Open Scope R_scope.

(** The learning rate leaves room for [n] updates of a pair whose rows are [x] and [y]: with T a little
    more than the error, and L the most that the lengths can grow to meanwhile,
    rate * (L^2 + 2 + T) <= 1/2, lengths and biases staying at most 30. *)
Definition room (rate : R) (n : nat) (f : f64) (x y : list f64) : Prop :=
  let T := Rabs (glove_error f x y) + INR n / 10 ^ 5 in
  let L := (len_r (vec x) + len_r (vec y) + 1) * exp T in
  0 < rate <= 1 /\ L <= 30 /\ rate * (L * L + 2 + T) <= 1 / 2 /\
  Rabs (f2r (bias x)) + T <= 30 /\ Rabs (f2r (bias y)) + T <= 30.

(** Rows of at most 2^20 finite numbers. *)
Definition finite_row (x : list f64) : Prop := (Z.of_nat (length x) <= 2 ^ 20)%Z /\ Forall (fun a : f64 => is_fin a = true) x.

(** LexVec, which has no biases: an update moves the two rows less the shorter they are, so the room for
    [n] updates also asks that the lengths cannot fall below [m] meanwhile. T bounds the sum of the sizes of
    the steps: a step is at most 4/m^2 times what it takes off the error, plus rounding. *)
Definition lex_room (rate m : R) (n : nat) (f : f64) (x y : list f64) : Prop :=
  let e := Rabs (lex_error f x y) in
  let T := 4 / (m * m) * e + INR n * (4 / (m * m) + 1) / 10 ^ 5 in
  let L := (len_r x + len_r y + 1) * exp T in
  0 < rate <= 1 /\ / 1000 <= m /\ m * exp (2 * T) <= len_r x + len_r y /\ L <= 30 /\ rate * (L * L + e + INR n / 10 ^ 5) <= 1 / 4.

(** The same for a row updated against itself. *)
Definition self_room (rate m : R) (n : nat) (f : f64) (x : list f64) : Prop :=
  let e := Rabs (lex_error f x x) in
  let T := 4 / (m * m) * e + INR n * (4 / (m * m) + 1) / 10 ^ 5 in
  let L := (len_r x + 1) * exp T in
  0 < 2 * rate <= 1 /\ / 1000 <= m /\ m * exp (2 * T) <= len_r x /\ L <= 30 /\ 2 * rate * (L * L + e + INR n / 10 ^ 5) <= 1 / 4.
