(** * What the progress reports should be *)
From Verif.Lib Require Import Go.
From Verif.Model Require Import Sched Run Progress.
Local Open Scope Z_scope.

(** The lines of a count that runs from 1 to [n]: every multiple of |LogBatch| in turn. *)
Definition milestones (verb noun : string) (lb : Z) (n : nat) : list line :=
  map (fun k => Line verb noun (Z.of_nat k * Z.abs lb) false) (seq 1 (n / Z.to_nat (Z.abs lb))).

(** ... and when the count is complete, the total, in a line of its own. *)
Definition announced (verb noun : string) (lb : Z) (n : nat) : list line :=
  milestones verb noun lb n ++ [Line verb noun (Z.of_nat n) true].

(** The lines of one iteration. *)
Definition of_iteration (j : nat) (out : list (nat * line)) : list line :=
  map snd (filter (fun p => Nat.eqb (fst p) j) out).

(** Save reports the ids of the words, which run from 0, and then their number [n]. *)
Definition save_lines (lb : Z) (n : nat) : list line :=
  map (fun i => Line "saved" "words" (Z.of_nat i) false) (filter (fun i => (i mod Z.to_nat (Z.abs lb) =? 0)%nat) (seq 0 n))
  ++ [Line "saved" "words" (Z.of_nat n) true].

(** What Train prints in [iter] iterations with [n] ticks each; [says l out]: the goroutines have come to [l], and [out] was
    printed. *)
Record told {A} (verbose : bool) (noun : string) (lb : Z) (n iter : nat) (says : list (st A) -> list (nat * line) -> Prop) : Prop := {
  (* at any time: the beginning of what should be printed, for every iteration *)
  t_prefix : forall l out j, says l out ->
    exists rest, (if verbose then announced "trained" noun lb n else []) = of_iteration j out ++ rest;
  (* all of it, once the observer of the iteration has ended *)
  t_ended : forall l out j s, says l out -> nth_error l j = Some s -> (exists k, obs s = OEnd k) ->
    of_iteration j out = if verbose then announced "trained" noun lb n else [];
  (* when Train returns: everything but possibly the last tick's line and the total *)
  t_returned : forall l out j, says l out -> returned iter l -> (j < iter)%nat ->
    exists rest, of_iteration j out = (if verbose then milestones "trained" noun lb (pred n) else []) ++ rest;
  (* and the total of the last iteration can indeed be missing *)
  t_early : (exists l out, says l out /\ returned iter l) ->
    exists l out, says l out /\ returned iter l /\ Forall (fun x => l_last x = false) (of_iteration (pred iter) out) }.
