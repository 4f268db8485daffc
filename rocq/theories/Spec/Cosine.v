(** * The cosine of two vectors, in exact arithmetic *)
From Coq Require Import Reals List.
From Flocq Require Import Core BinarySingleNaN.
From Verif.Lib Require Import Go F64 F64Facts.
Import ListNotations.
Local Open Scope R_scope.

Definition dot_r (u v : list f64) : R :=
  fold_right Rplus 0 (map (fun p => f2r (fst p) * f2r (snd p)) (combine u v)).
Definition len_r (v : list f64) : R := sqrt (dot_r v v).
Definition cos_r (u v : list f64) : R := dot_r u v / (len_r u * len_r v).

(** A component far from overflow and underflow: 0, or of magnitude between 2^-400 and 2^400. *)
Definition ordinary (x : f64) : Prop :=
  is_fin x = true /\ (f2r x = 0 \/ bpow radix2 (-400) <= Rabs (f2r x) <= bpow radix2 400).
Definition nonzero (v : list f64) : Prop := exists x, In x v /\ f2r x <> 0.
