(** * The logistic function, and what is assumed of math.Exp *)
From Coq Require Import Reals.
From Flocq Require Import Core.
From Verif.Lib Require Import Go F64 F64Facts.
Local Open Scope R_scope.

Definition logistic (x : R) : R := / (1 + exp (- x)).

(** math.Exp is finite and has relative error at most 2^-40 on [-7, 7]. (Go documents less than one
    unit in the last place, 2^-52.) *)
Definition exp_accurate (fexp : f64 -> f64) : Prop :=
  forall x, is_fin x = true -> Rabs (f2r x) <= 7 ->
    is_fin (fexp x) = true /\ Rabs (f2r (fexp x) - exp (f2r x)) <= exp (f2r x) * / 2 ^ 40.

(** Two vectors whose components are 0 or of magnitude 2^-400 to 2^400, with at most 2^20 of them, and
    whose lengths have a product of at most a million. *)
From Verif.Spec Require Import Cosine.
Definition moderate (u v : list f64) : Prop :=
  length u = length v /\ (Z.of_nat (length u) <= 2 ^ 20)%Z /\ Forall ordinary u /\ Forall ordinary v /\
  len_r u * len_r v <= 1000000.

(** The factor of one training step with label 1 (a true neighbour) or 0 (a noise word) for the score
    [x]: (label - logistic x) * rate, up to 0.0032 times the rate and an underflow; and never of the
    wrong sign or above the rate. *)
Definition gradient_factor (label : Z) (x : R) (rate : R) (g : f64) : Prop :=
  is_fin g = true /\
  (label = 1%Z -> 0 <= f2r g <= rate) /\ (label = 0%Z -> - rate <= f2r g <= 0) /\
  Rabs (f2r g - (IZR label - logistic x) * rate) <= 32 / 10000 * rate + bpow radix2 (-1000).
