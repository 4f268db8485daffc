(** * Vocabulary for statements about executions of the training goroutines *)
From Verif.Lib Require Import Go.
From Verif.Model Require Import Sched.

(** What worker [i] handled, in time order. *)
Definition by_worker {A} (i : nat) (l : list (nat * A)) : list A :=
  map snd (filter (fun p => Nat.eqb (fst p) i) l).

(** Ticks the observer has received. *)
Definition ticks (o : obspc) : nat := match o with ORecv n | OBusy n | OEnd n => n end.

(** The main goroutine left the iteration and all other goroutines ended. *)
Definition finished {A} (s : st A) : Prop :=
  main s = MDone /\ (exists n, obs s = OEnd n) /\ Forall (fun k => w_at k = WEnd) (wks s).

(** Number of workers in a given phase. *)
Definition count {A} (f : wstep A -> bool) (s : st A) : nat := length (filter f (map w_at (wks s))).

(** Between Acquire and Release. *)
Definition holds_sem {A} (w : wstep A) : bool :=
  match w with WRun _ | WHold _ _ | WSend _ | WRel => true | _ => false end.
(** In trainOne with a scratch vector. *)
Definition in_train {A} (w : wstep A) : bool := match w with WHold _ _ => true | _ => false end.
