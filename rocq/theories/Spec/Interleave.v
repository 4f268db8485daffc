(** * Interleavings of the work of several goroutines *)
From Verif.Lib Require Import Go.
From Verif.Spec Require Import Sched.

(** [p] lists pairs (goroutine, item): an interleaving of the slices, each goroutine handling its own
    slice from left to right. *)
Definition interleaves {A} (slices : list (list A)) (p : list (nat * A)) : Prop :=
  Forall (fun q => fst q < length slices) p /\ forall i d, nth_error slices i = Some d -> by_worker i p = d.
