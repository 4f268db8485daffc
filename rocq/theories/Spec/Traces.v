(** * Training runs as sequences of actions: the words handled and the updates of the learning rate *)
From Verif.Lib Require Import Go.
From Verif.Spec Require Import Training.

(** [Draw k i pos train]: in pass [k] goroutine [i] decides by a random number whether the word at
    position [pos] of its slice is trained. [Train k i pos]: it trains that word.
    [Rate k n]: the learning rate is brought up to date after [n] words of pass [k]. *)
Inductive action :=
| Draw (k i pos : nat) (train : bool)
| Train (k i pos : nat)
| Rate (k n : nat).

(** A word is handled when it has been skipped or trained. *)
Definition handles (k : nat) (a : action) : bool :=
  match a with Draw k' _ _ b => (k' =? k) && negb b | Train k' _ _ => k' =? k | Rate _ _ => false end.
Definition handled (k : nat) (es : list action) : nat := length (filter (handles k) es).
Definition is_rate (k : nat) (a : action) : bool := match a with Rate k' _ => k' =? k | _ => false end.
Definition rates (k : nat) (es : list action) : list action := filter (is_rate k) es.

(** The actions of goroutine [i] in pass [k]. *)
Definition is_by (k i : nat) (a : action) : bool :=
  match a with Draw k' i' _ _ | Train k' i' _ => (k' =? k) && (i' =? i) | Rate _ _ => false end.
Definition actions_of (k i : nat) (es : list action) : list action := filter (is_by k i) es.
(** What they must be, given the outcomes of its random decisions: the words one after the other. *)
Fixpoint script (k i pos : nat) (bs : list bool) : list action :=
  match bs with
  | [] => []
  | b :: bs' => Draw k i pos b :: (if b then [Train k i pos] else []) ++ script k i (S pos) bs'
  end.

(** The pass in which a goroutine acts. *)
Definition pass_of (a : action) : option nat := match a with Draw k _ _ _ | Train k _ _ => Some k | Rate _ _ => None end.

Section Traces.
Context {A X : Type}.
Variables (slices : list (list A)) (trial : A -> X -> outcome (X * bool)) (work : list A -> nat -> X -> outcome X) (rate : nat -> X -> outcome X).

(** What an action does to the shared values. *)
Definition act (a : action) (v : X) : outcome X :=
  match a with
  | Draw _ i pos b =>
      match nth_error slices i with
      | Some d => match nth_error d pos with
                  | Some y => obind (trial y v) (fun '(v', b') => if Bool.eqb b b' then Ret v' else Panic)
                  | None => Panic end
      | None => Panic end
  | Train _ i pos => match nth_error slices i with Some d => work d pos v | None => Panic end
  | Rate _ n => rate n v
  end.

(** [es] is a complete training of [iter] passes by at most [g] goroutines at a time:
    every goroutine handles the words of its slice from left to right; no pass begins before the one
    before has ended; in each pass the rate is updated after 1, 2, 3, ... words, only the very last
    update being possibly missing; and no update is early, or late by more than [g]+1 words. *)
Record complete (g iter : nat) (es : list action) : Prop := {
  cp_words : forall k i d, k < iter -> nth_error slices i = Some d ->
    exists bs, length bs = length d /\ actions_of k i es = script k i 0 bs;
  cp_known : forall a, In a es -> match a with Draw k i _ _ | Train k i _ => k < iter /\ i < length slices | Rate k _ => k < iter end;
  cp_order : forall es1 a es2 b es3 k k', es = es1 ++ a :: es2 ++ b :: es3 -> pass_of a = Some k -> pass_of b = Some k' -> k <= k';
  cp_rates : forall k, k < iter -> exists m, rates k es = map (Rate k) (seq 1 m) /\ m <= length (concat slices) <= S m;
  cp_lag : forall es1 es2 k, es = es1 ++ es2 -> length (rates k es1) <= handled k es1 <= length (rates k es1) + g + 1 }.

(** Values reachable by the actions. *)
Definition plays (es : list action) (v v' : X) : Prop := ofold act es v = Ret v'.
End Traces.

(** One pass in which the goroutines take turns as [order] says, each turn being: one word, then the
    update of the rate. [pos i] is the next position of goroutine [i], [n] words have been handled. *)
Section Turns.
Context {A X : Type}.
Variables (slices : list (list A)) (trial : A -> X -> outcome (X * bool)) (work : list A -> nat -> X -> outcome X) (rate : nat -> X -> outcome X).

Fixpoint turns (pos : nat -> nat) (n : nat) (order : list nat) (v : X) : outcome X :=
  match order with
  | [] => Ret v
  | i :: order' =>
      match nth_error slices i with
      | Some d =>
          match nth_error d (pos i) with
          | Some y =>
              obind (trial y v) (fun '(v1, b) =>
              obind (if b then work d (pos i) v1 else Ret v1) (fun v2 =>
              obind (rate (S n) v2) (turns (fun j => if j =? i then S (pos j) else pos j) (S n) order')))
          | None => Panic end
      | None => Panic end
  end.

(** In [order] every goroutine occurs as often as its slice has words. *)
Definition fair (order : list nat) : Prop :=
  forall i, count_occ Nat.eq_dec order i = match nth_error slices i with Some d => length d | None => 0 end.
End Turns.

(** The numbers of words for which the rate was updated, in the order of the updates. *)
Fixpoint update_counts (es : list action) : list Z :=
  match es with
  | [] => []
  | Rate _ n :: es' => Z.of_nat n :: update_counts es'
  | _ :: es' => update_counts es'
  end.
