(** * Vectors for which similarities neither overflow nor underflow *)
From Coq Require Import Reals List ZArith.
From Flocq Require Import Core BinarySingleNaN.
From Verif.Lib Require Import Go F64 F64Facts.
Local Open Scope R_scope.

(** A finite component that is 0 or of magnitude between 2^-100 and 2^100. (A number read from a saved file
    is 0 or at least a millionth.) *)
Definition moderate (x : f64) : Prop :=
  is_fin x = true /\ (f2r x = 0 \/ bpow radix2 (-100) <= Rabs (f2r x) <= bpow radix2 100).
