(** * What it means for goroutines sharing memory to be safe *)
From Verif.Lib Require Import Go F64 F64Facts.
From Verif.Spec Require Import Rows.
From Verif.Model Require Import Matrix ModelUtil Race.

(** A matrix with [n] rows of [col] components. *)
Definition grid (n col : nat) (m : matrix) : Prop :=
  exists rows, m = of_rows col rows /\ all_len col rows /\ length rows = n.

(** The generator's variable is a uint64. *)
Definition is_uint64 (z : Z) : Prop := (0 <= z < 2 ^ 64)%Z.

(** In every execution from [s0], whatever the interleaving and whatever is written to currentlr:
    the goroutines take at most [bound] steps together, the memory satisfies [inv] at every moment,
    and the next step of every unfinished goroutine succeeds, unless the goroutine stands at an
    [excused] step. *)
Definition survives {R} (sig : f64 -> outcome f64) (bound : nat) (inv : smem -> Prop) (excused : prog R -> Prop) (s0 : system R) : Prop :=
  forall n s, sys_runs sig n s0 s ->
    n <= bound /\ inv (y_mem s) /\
    forall i p x, nth_error (y_threads s) i = Some p -> pdone p = false ->
      (exists q, pexec sig x (y_mem s) p = Ret q) \/ excused p.

Definition never {R} (p : prog R) : Prop := False.
(** The table lookup sigtable.sigmoid(y) for NaN or the float64 just below 6 (C29). *)
Definition bad_lookup {R} (p : prog R) : Prop :=
  exists y k, p = PLookup y k /\ (isnan y = true \/ feq y (f_of_ratio false (6 * 2 ^ 50 - 1) (2 ^ 50)) = true).

Definition total (l : list nat) : nat := fold_right Nat.add 0 l.

(** A client that calls NextRandom once for each bound in the list and collects bound and result. *)
Fixpoint draws (bounds : list Z) : prog (list (Z * Z)) :=
  match bounds with
  | [] => PRet []
  | v :: bounds' => pbind (p_next_random v) (fun r => pbind (draws bounds') (fun l => PRet ((v, r) :: l)))
  end.
(** The same calls made by one goroutine from state [next]: results and final state. *)
Fixpoint draws_alone (bounds : list Z) (next : Z) : list (Z * Z) * Z :=
  match bounds with
  | [] => ([], next)
  | v :: bounds' => let (l, n') := draws_alone bounds' (lcg next) in ((v, (lcg next mod v)%Z) :: l, n')
  end.

(** A whole training: iteration k starts the goroutines [ts] on the memory that the iteration before
    has left when all its goroutines were done. [during .. k n s]: at some moment of iteration [k],
    after [n] of its steps, the system is [s]. *)
Inductive during (sig : f64 -> outcome f64) (ts : list (prog unit)) (m0 : smem) : nat -> nat -> system unit -> Prop :=
| in_first n s : sys_runs sig n (Sys m0 ts) s -> during sig ts m0 0 n s
| in_next k n s n' s' : during sig ts m0 k n s -> forallb pdone (y_threads s) = true ->
    sys_runs sig n' (Sys (y_mem s) ts) s' -> during sig ts m0 (S k) n' s'.

(** At every moment of every iteration the memory satisfies [inv] and every unfinished goroutine can
    take its next step, unless it stands at an [excused] one; and no iteration takes more than
    [bound] steps. *)
Definition training_survives (sig : f64 -> outcome f64) (bound : nat) (inv : smem -> Prop) (excused : prog unit -> Prop)
  (ts : list (prog unit)) (m0 : smem) : Prop :=
  forall k n s, during sig ts m0 k n s ->
    n <= bound /\ inv (y_mem s) /\
    forall i p x, nth_error (y_threads s) i = Some p -> pdone p = false ->
      (exists q, pexec sig x (y_mem s) p = Ret q) \/ excused p.

(** Every component of the matrix satisfies [Q]. *)
Definition every_cell (Q : f64 -> Prop) (m : matrix) : Prop := Forall Q (m_array m).
