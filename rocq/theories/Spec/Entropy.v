(** * Specification: the information in a list of frequencies *)
From Coq Require Import List Reals.
From Verif.Spec Require Import Likelihood.
Import ListNotations.
Local Open Scope R_scope.

Definition log2 (x : R) : R := ln x / ln 2.

(** The number of words times the entropy, in bits, of the distribution of the words: the sum over the
    words of frequency * log2 (total / frequency). *)
Definition information (freqs : list nat) : R :=
  let total := INR (list_sum freqs) in rsum (map (fun f => INR f * log2 (total / INR f)) freqs).
