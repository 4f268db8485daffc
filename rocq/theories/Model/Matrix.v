(** * Model of pkg/model/modelutil/matrix/matrix.go *)
From Verif.Lib Require Import Go F64.
Local Open Scope Z_scope.

(** matrix.go:17-21, [type Matrix struct]. *)
Record matrix := Mat { m_array : list f64; m_row : Z; m_col : Z }.

(** matrix.go:35-37, [startIndex]. Overflow of the product is ignored. *)
Definition start_index (m : matrix) (id : Z) : Z := id * m_col m.

(** Go's slice expression [a[lo:hi]] on a full slice: bounds [0 <= lo <= hi <= cap]. matrix.go:49. *)
Definition slice_ok (len lo hi : Z) : bool := (0 <=? lo) && (lo <=? hi) && (hi <=? len).

(** matrix.go:47-50, [Slice]: the values currently in the row. *)
Definition mat_slice (m : matrix) (id : Z) : outcome (list f64) :=
  let start := start_index m id in
  if slice_ok (Z.of_nat (length (m_array m))) start (start + m_col m)
  then Ret (firstn (Z.to_nat (m_col m)) (skipn (Z.to_nat start) (m_array m)))
  else Panic.

(** Writing [row] through the slice returned by [Slice(id)] (the slice aliases the array). Used wherever a caller writes into the result of matrix.go:47-50. *)
Definition mat_store (m : matrix) (id : Z) (row : list f64) : matrix :=
  let s := Z.to_nat (start_index m id) in
  Mat (firstn s (m_array m) ++ row ++ skipn (s + length row) (m_array m)) (m_row m) (m_col m).

(** matrix.go:29-31: the loop over the rows; [fn] gets the row and leaves new values in it
    (it cannot change its length); it may have effects of its own (state [St]). *)
Fixpoint mat_fill {St} (fn : St -> Z -> list f64 -> St * list f64) (n : nat) (i : Z)
  (st : St) (m : matrix) : outcome (St * matrix) :=
  match n with
  | O => Ret (st, m)
  | S k => obind (mat_slice m i) (fun r =>
           let '(st', r') := fn st i r in
           mat_fill fn k (i + 1) st' (mat_store m i r'))
  end.

(** matrix.go:23-33, [New]. [make] panics on a negative size. *)
Definition mat_new {St} (row col : Z) (fn : St -> Z -> list f64 -> St * list f64) (st : St)
  : outcome (St * matrix) :=
  if row * col <? 0 then Panic
  else mat_fill fn (Z.to_nat row) 0 st (Mat (repeat fzero (Z.to_nat (row * col))) row col).
