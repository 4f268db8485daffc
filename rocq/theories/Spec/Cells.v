(** * Two-row updates, component by component *)
From Verif.Lib Require Import Go F64.
From Verif.Model Require Import ModelUtil.
From Verif.Spec Require Import Training.

(** x - d*y, component-wise. *)
Definition step_row (d : f64) (x y : list f64) : list f64 := zipw (fun a b => fsub a (fmul d b)) x y.

(** A GloVe row is a vector followed by its bias. *)
Definition vec (r : list f64) : list f64 := removelast r.
Definition bias (r : list f64) : f64 := last r fzero.

(** The scaled error of a GloVe item: (x.y + bx + by - f) * (coef * lr). *)
Definition glove_diff (lr f coef : f64) (r1 r2 : list f64) : f64 :=
  fmul (fadd (dot (vec r1) (vec r2)) (fsub (fadd (bias r1) (bias r2)) f)) (fmul coef lr).

(** Plain gradient step of row [r1] against [r2]. *)
Definition sgd_row (d : f64) (r1 r2 : list f64) : list f64 :=
  step_row d (vec r1) (vec r2) ++ [fsub (bias r1) d].

(** AdaGrad: the accumulators of the row first take the squared gradients ... *)
Definition ada_acc (d : f64) (g r2 : list f64) : list f64 :=
  zipw (fun q b => fadd q (fmul (fmul d b) (fmul d b))) (vec g) (vec r2) ++ [fadd (bias g) (fmul d d)].
(** ... and the step of each component is divided by the square root of its new accumulator; the
    bias uses its old one. *)
Definition ada_row (d : f64) (r1 r2 g : list f64) : list f64 :=
  zipw fsub (vec r1)
       (zipw (fun b q => fdiv (fmul d b) (fsqrt q)) (vec r2) (vec (ada_acc d g r2)))
  ++ [fsub (bias r1) (fdiv d (fsqrt (bias g)))].

(** Simultaneous replacement of two rows. *)
Definition upd2 {A} (rows : list A) (i j : nat) (x y : A) : list A := upd (upd rows i x) j y.

(** ** LexVec *)

(** A row paired with itself: each component is decreased twice by the same amount. *)
Definition self_row (d : f64) (x : list f64) : list f64 := map (fun a => fsub (fsub a (fmul d a)) (fmul d a)) x.

(** One update of rows [a] and [b] towards the value [f]. *)
Definition lex_step (lr : f64) (rows : list (list f64)) (s : nat * nat * f64) : list (list f64) :=
  let '(a, b, f) := s in
  let x := nth a rows [] in
  let y := nth b rows [] in
  let d := fmul (fsub (dot x y) f) lr in
  if Nat.eqb a b then upd rows a (self_row d x)
  else upd2 rows a b (step_row d x y) (step_row d y x).

(** The updates for the word [w] with context words [us]: for each context word [u] the pair (w, u),
    then [neg] pairs of [w] with the context row (offset [V]) of a drawn word. [val] is the stored
    relation value of a pair of words. *)
Fixpoint lex_steps (val : nat -> nat -> f64) (V neg w : nat) (us : list nat) (next : Z) : list (nat * nat * f64) :=
  match us with
  | [] => []
  | u :: us' =>
      (w, u, val w u) :: map (fun s => (w, (s + V)%nat, val w s)) (map (draw next (Z.of_nat V)) (seq 0 neg))
      ++ lex_steps val V neg w us' (Nat.iter neg lcg next)
  end.
