(** * Which words survive the MaxCount/MinCount options *)
From Verif.Lib Require Import Go.
From Verif.Spec Require Import Words.
Local Open Scope Z_scope.

(** A frequency [f] passes when it is at most [maxc] (if [maxc] is positive) and at least
    [minc] (if [minc] is not negative). *)
Definition kept (maxc minc : Z) (f : nat) : bool :=
  ((maxc <=? 0) || (Z.of_nat f <=? maxc)) && ((minc <? 0) || (minc <=? Z.of_nat f)).

(** The words of a text that pass, in order. *)
Definition kept_words (maxc minc : Z) (ws : list gostring) : list gostring :=
  filter (fun w => kept maxc minc (occurrences w ws)) ws.
