(** * Inputs that every corpus reads without error *)
From Verif.Lib Require Import Go.
From Verif.Spec Require Import Tokens.
From Verif.Model Require Import Reader.

(** The document has the words [all], all read without error and within the scanner's buffer, and
    progress reports do not divide by zero. *)
Definition readable (verbose : bool) (log_batch : Z) (doc : reader) (all : list gostring) : Prop :=
  (verbose = false \/ log_batch <> 0%Z) /\ tokens (rd_data doc) all /\ rd_err doc = false /\
  Forall (fun w => (Z.of_nat (length w) <= 65533)%Z) all.

(** The words as the corpus uses them, [lower] being strings.ToLower. *)
Definition used_words (lower : gostring -> gostring) (to_lower : bool) (all : list gostring) : list gostring :=
  if to_lower then map lower all else all.
