(** * Model of pkg/model/word2vec/sigmoid_table.go

    [math.Exp] is not modelled: it is the parameter [exp], and the theorems quantify over it. *)
From Verif.Lib Require Import Go F64.
Local Open Scope Z_scope.

(** sigmoid_table.go:30-32. *)
Definition exp_table_size : Z := 1000.
(** sigmoid_table.go:31. *)
Definition max_exp : f64 := f_of_Z 6.
(** sigmoid_table.go:32. *)
Definition sig_cache : f64 := fdiv (fdiv (f_of_Z exp_table_size) max_exp) (f_of_Z 2).

(** sigmoid_table.go:35: the argument of math.Exp for entry [i]. *)
Definition sig_grid (i : Z) : f64 :=
  fmul (fsub (fmul (fdiv (f_of_Z i) (f_of_Z exp_table_size)) (f_of_Z 2)) (f_of_Z 1)) max_exp.

(** sigmoid_table.go:36. *)
Definition sig_entry (expval : f64) : f64 := fdiv expval (fadd expval (f_of_Z 1)).

(** sigmoid_table.go:33-37: the table. *)
Definition sig_table (exp : f64 -> f64) : list f64 :=
  map (fun i => sig_entry (exp (sig_grid (Z.of_nat i)))) (seq 0 (Z.to_nat exp_table_size)).

(** [int(x)] as amd64 computes it: truncation; NaN, infinities and out-of-range values give the
    smallest int64. (The language leaves these implementation-defined.). sigmoid_table.go:44. *)
Definition int_of_f64 (x : f64) : Z :=
  match f_to_Z x with Some z => z | None => - 2 ^ 63 end.

(** sigmoid_table.go:44: the index expression. *)
Definition sig_index (x : f64) : Z := int_of_f64 (fmul (fadd x max_exp) sig_cache).

(** sigmoid_table.go:43-45, [sigmoid]. *)
Definition sigmoid (table : list f64) (x : f64) : outcome f64 :=
  match zindex table (sig_index x) with
  | Some v => Ret v
  | None => Panic
  end.
