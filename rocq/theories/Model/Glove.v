(** * Model of pkg/model/glove: item.go and solver.go, and trainPerThread of glove.go

    [math.Log] and [math.Pow] are the arguments [flog] and [fpow]. *)
From Verif.Lib Require Import Go F64.
From Verif.Model Require Import Encode Cooc Matrix Cells.
Local Open Scope Z_scope.

(** item.go:26-30. *)
Record item := Item { it_l1 : Z; it_l2 : Z; it_f : f64; it_coef : f64 }.

Section Items.
Variables (flog : f64 -> f64) (fpow : f64 -> f64 -> f64).
Variables (xmax : Z) (alpha : f64).

(** item.go:36-47: one binding of the map. *)
Definition make_item (kv : Z * f64) : item :=
  let (enc, f) := kv in
  let (u1, u2) := decode_bigram enc in
  let coef := if flt f (f_of_Z xmax) then fpow (fdiv f (f_of_Z xmax)) alpha else f_of_Z 1 in
  Item (wrap_int u1) (wrap_int u2) (flog f) coef.

(** item.go:32-59, [makeItems]; [em] lists the map in iteration order. The result slice is
    allocated with length len(em) and filled in that order. With Verbose, [idx % LogBatch] is
    computed after each item. *)
Fixpoint make_items (verbose : bool) (log_batch : Z) (em : list (Z * f64)) : outcome (list item) :=
  match em with
  | [] => Ret []
  | kv :: em' =>
      if verbose && (log_batch =? 0) then Panic
      else obind (make_items verbose log_batch em') (fun items => Ret (make_item kv :: items))
  end.
End Items.

(** solver.go:38-53, [stochastic.trainOne]. *)
Definition sgd_train_one (initlr : f64) (l1 l2 : Z) (f coef : f64) (m : matrix) : outcome matrix :=
  obind (mat_slice m l1) (fun v1 => obind (mat_slice m l2) (fun _ =>
  let dim := Z.of_nat (length v1) - 1 in
  obind (cell_dot m l1 l2 (Z.to_nat dim) 0 fzero) (fun s =>
  obind (cell m l1 dim) (fun b1 => obind (cell m l2 dim) (fun b2 =>
  let diff := fmul (fadd s (fsub (fadd b1 b2) f)) (fmul coef initlr) in
  obind (pair_loop diff l1 l2 (Z.to_nat dim) 0 m) (fun m1 =>
  obind (sub_cell m1 l1 dim diff) (fun m2 => sub_cell m2 l2 dim diff))))))).

(** solver.go:60-74, [newAdaGrad]: all accumulators are 1. *)
Definition new_adagrad (V dim : Z) : outcome matrix :=
  obind (mat_new (V * 2) (dim + 1) (fun (_ : unit) _ vec => (tt, map (fun _ => f_of_Z 1) vec)) tt)
    (fun r => Ret (snd r)).

(** solver.go:85-93: parameters [m] and accumulators [g] (a separate array). *)
Fixpoint ada_loop (diff : f64) (l1 l2 : Z) (n : nat) (i : Z) (m g : matrix) : outcome (matrix * matrix) :=
  match n with
  | O => Ret (m, g)
  | S k =>
      obind (cell m l2 i) (fun b => obind (cell m l1 i) (fun a =>
      let t1 := fmul diff b in let t2 := fmul diff a in
      obind (add_cell g l1 i (fmul t1 t1)) (fun g1 =>
      obind (add_cell g1 l2 i (fmul t2 t2)) (fun g2 =>
      obind (cell g2 l1 i) (fun q1 => obind (cell g2 l2 i) (fun q2 =>
      obind (sub_cell m l1 i (fdiv t1 (fsqrt q1))) (fun m1 =>
      obind (sub_cell m1 l2 i (fdiv t2 (fsqrt q2))) (fun m2 =>
      ada_loop diff l1 l2 k (i + 1) m2 g2))))))))
  end.

(** solver.go:76-99, [adaGrad.trainOne]. *)
Definition ada_train_one (initlr : f64) (l1 l2 : Z) (f coef : f64) (mg : matrix * matrix)
  : outcome (matrix * matrix) :=
  let (m, g) := mg in
  obind (mat_slice m l1) (fun v1 => obind (mat_slice m l2) (fun _ =>
  obind (mat_slice g l1) (fun _ => obind (mat_slice g l2) (fun _ =>
  let dim := Z.of_nat (length v1) - 1 in
  obind (cell_dot m l1 l2 (Z.to_nat dim) 0 fzero) (fun s =>
  obind (cell m l1 dim) (fun b1 => obind (cell m l2 dim) (fun b2 =>
  let diff := fmul (fadd s (fsub (fadd b1 b2) f)) (fmul coef initlr) in
  obind (ada_loop diff l1 l2 (Z.to_nat dim) 0 m g) (fun '(m1, g1) =>
  obind (cell g1 l1 dim) (fun q1 =>
  obind (sub_cell m1 l1 dim (fdiv diff (fsqrt q1))) (fun m2 =>
  obind (cell g1 l2 dim) (fun q2 =>
  obind (sub_cell m2 l2 dim (fdiv diff (fsqrt q2))) (fun m3 =>
  let sq := fmul diff diff in
  obind (add_cell g1 l1 dim sq) (fun g2 =>
  obind (add_cell g2 l2 dim sq) (fun g3 => Ret (m3, g3))))))))))))))).

(** The solver interface: the parameters and, for AdaGrad, the accumulators. solver.go:24-30, 55-58. *)
Inductive solver := Stochastic | AdaGrad (g : matrix).
(** solver.go:24-26, the interface call at glove.go:154-155. *)
Definition solver_train_one (initlr : f64) (l1 l2 : Z) (f coef : f64) (st : matrix * solver)
  : outcome (matrix * solver) :=
  match snd st with
  | Stochastic => obind (sgd_train_one initlr l1 l2 f coef (fst st)) (fun m => Ret (m, Stochastic))
  | AdaGrad g => obind (ada_train_one initlr l1 l2 f coef (fst st, g)) (fun '(m, g') => Ret (m, AdaGrad g'))
  end.

(** glove.go:153-155: what trainPerThread does with one item; [V] is dic.Len(). *)
Definition glove_train_item (initlr : f64) (V : Z) (it : item) (st : matrix * solver) : outcome (matrix * solver) :=
  obind (solver_train_one initlr (it_l1 it) (it_l2 it + V) (it_f it) (it_coef it) st)
        (solver_train_one initlr (it_l1 it + V) (it_l2 it) (it_f it) (it_coef it)).
