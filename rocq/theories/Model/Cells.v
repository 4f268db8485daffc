(** * Element-wise access to rows of a matrix, with aliasing

    GloVe (pkg/model/glove/solver.go) and LexVec (pkg/model/lexvec/lexvec.go) update two rows
    component by component through slices of the same array; the two rows may be the same row.
    Every read and write goes through the current matrix, so aliasing behaves as in Go. *)
From Verif.Lib Require Import Go F64.
From Verif.Model Require Import Matrix.
Local Open Scope Z_scope.

(** The read [m.Slice(id)[i]]. Used for solver.go:41-52, 80-98, lexvec.go:223-230; [Slice] is matrix.go:47-50. *)
Definition cell (m : matrix) (id i : Z) : outcome f64 :=
  obind (mat_slice m id) (fun r => match zindex r i with Some x => Ret x | None => Panic end).

(** The write [m.Slice(id)[i] = x]. solver.go:48-52, 87-98, lexvec.go:229-230. *)
Definition set_cell (m : matrix) (id i : Z) (x : f64) : outcome matrix :=
  obind (mat_slice m id) (fun r =>
  match zindex r i with Some _ => Ret (mat_store m id (upd r (Z.to_nat i) x)) | None => Panic end).

(** [m.Slice(id)[i] -= t] and [m.Slice(id)[i] += t]. solver.go:48-52, 87-98, lexvec.go:229-230. *)
Definition sub_cell (m : matrix) (id i : Z) (t : f64) : outcome matrix :=
  obind (cell m id i) (fun x => set_cell m id i (fsub x t)).
(** solver.go:87-88, 97-98: [m.Slice(id)[i] += t]. *)
Definition add_cell (m : matrix) (id i : Z) (t : f64) : outcome matrix :=
  obind (cell m id i) (fun x => set_cell m id i (fadd x t)).

(** solver.go:41-43, solver.go:80-82, lexvec.go:222-224:
    [for i := 0; i < dim; i++ { diff += v1[i] * v2[i] }]. *)
Fixpoint cell_dot (m : matrix) (l1 l2 : Z) (n : nat) (i : Z) (diff : f64) : outcome f64 :=
  match n with
  | O => Ret diff
  | S k => obind (cell m l1 i) (fun a => obind (cell m l2 i) (fun b =>
           cell_dot m l1 l2 k (i + 1) (fadd diff (fmul a b))))
  end.

(** solver.go:46-50, lexvec.go:226-231: t1, t2 := diff*v2[i], diff*v1[i]; v1[i] -= t1; v2[i] -= t2. *)
Fixpoint pair_loop (diff : f64) (l1 l2 : Z) (n : nat) (i : Z) (m : matrix) : outcome matrix :=
  match n with
  | O => Ret m
  | S k => obind (cell m l2 i) (fun b => obind (cell m l1 i) (fun a =>
           obind (sub_cell m l1 i (fmul diff b)) (fun m1 =>
           obind (sub_cell m1 l2 i (fmul diff a)) (pair_loop diff l1 l2 k (i + 1)))))
  end.
