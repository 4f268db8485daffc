(** * How far a similarity computed from a saved file may be from the true cosine *)
From Coq Require Import Reals List ZArith.
From Flocq Require Import Core BinarySingleNaN.
From Verif.Lib Require Import Go F64 F64Facts.
From Verif.Spec Require Import Cosine.
Local Open Scope R_scope.

(** Two roundings to a millionth per component, relative to the lengths, and the rounding errors of
    the computation (C61). *)
Definition slack (u v : list f64) : R :=
  2 * sqrt (INR (length u)) / 10 ^ 6 * (/ len_r u + / len_r v) + (4 * INR (length u) + 12) * bpow radix2 (-53).

(** Finite components of magnitude at most 2^399, and longer than what rounding could make vanish. *)
Definition storable (v : list f64) : Prop :=
  Forall (fun x : f64 => is_fin x = true /\ Rabs (f2r x) <= bpow radix2 399) v /\ sqrt (INR (length v)) / 10 ^ 6 < len_r v.
