(** * The error of one pair, in exact arithmetic *)
From Coq Require Import Reals List ZArith.
From Verif.Lib Require Import Go F64 F64Facts.
From Verif.Spec Require Import Cosine Cells.
Local Open Scope R_scope.

(** A vector of at most 2^20 finite components, with length at most 30. *)
Definition small (v : list f64) : Prop := (Z.of_nat (length v) <= 2 ^ 20)%Z /\ Forall (fun x : f64 => is_fin x = true) v /\ len_r v <= 30.
(** A number of magnitude at most 30. *)
Definition small1 (x : f64) : Prop := is_fin x = true /\ Rabs (f2r x) <= 30.

(** GloVe: (vector . vector + bias + bias) - f. *)
Definition glove_error (f : f64) (r1 r2 : list f64) : R := dot_r (vec r1) (vec r2) + f2r (bias r1) + f2r (bias r2) - f2r f.
(** LexVec: vector . vector - f. *)
Definition lex_error (f : f64) (x y : list f64) : R := dot_r x y - f2r f.

(** The squared length of everything the error depends on. *)
Definition glove_size (r1 r2 : list f64) : R := dot_r (vec r1) (vec r1) + dot_r (vec r2) (vec r2) + 2.
Definition lex_size (x y : list f64) : R := dot_r x x + dot_r y y.

(** A learning rate that is not too large for a pair of this size and error. *)
Definition gentle (rate size error : R) : Prop := 0 <= rate <= 1 /\ rate * (size + Rabs error) <= 1 / 2.
