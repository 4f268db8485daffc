(** * Specification: consecutive slices *)
From Coq Require Import List ZArith.
Import ListNotations.

(** [data[lo:hi]]. *)
Definition slice {A} (data : list A) (lo hi : Z) : list A :=
  firstn (Z.to_nat (hi - lo)) (skipn (Z.to_nat lo) data).

(** The slices between consecutive boundaries. *)
Fixpoint slices {A} (data : list A) (bounds : list Z) : list (list A) :=
  match bounds with
  | lo :: ((hi :: _) as rest) => slice data lo hi :: slices data rest
  | _ => []
  end.
