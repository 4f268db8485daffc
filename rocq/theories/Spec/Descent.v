(** * The weighted squared error of a pair, in exact arithmetic *)
From Coq Require Import Reals List.
From Verif.Lib Require Import Go F64 F64Facts.
Import ListNotations.
Local Open Scope R_scope.

Definition sum_of_products (x y : list R) : R := fold_right Rplus 0 (map (fun p => fst p * snd p) (combine x y)).

(** GloVe: a row is a vector followed by its bias; the cost of a pair of rows with value [f] and weight
    [w] is half of [w] times the square of (vector . vector + bias + bias - f). *)
Definition glove_cost (w f : R) (r1 r2 : list R) : R :=
  w / 2 * (sum_of_products (removelast r1) (removelast r2) + last r1 0 + last r2 0 - f) ^ 2.
(** LexVec: half the square of (vector . vector - f). *)
Definition lex_cost (f : R) (x y : list R) : R := / 2 * (sum_of_products x y - f) ^ 2.

(** [d] is the derivative of [J] with respect to number [i] of [x]. *)
Definition slope (J : list R -> R) (x : list R) (i : nat) (d : R) : Prop :=
  derivable_pt_lim (fun t => J (upd x i t)) (nth i x 0) d.

(** The real numbers that the floats of a row stand for. *)
Definition reals (v : list f64) : list R := map f2r v.

(** [a'] is a finite float within [tol] of [v]. *)
Definition near (tol : R) (v : R) (a' : f64) : Prop := is_fin a' = true /\ Rabs (f2r a' - v) <= tol.
