(** * Model of pkg/corpus/cooccurrence/cooccurrence.go *)
From Verif.Lib Require Import Go F64.
From Verif.Model Require Import Encode.
Local Open Scope Z_scope.

(** Go [int] arithmetic wraps at 64 bits. Used at cooccurrence.go:65. *)
Definition wrap_int (x : Z) : Z := (x + 2 ^ 63) mod 2 ^ 64 - 2 ^ 63.

(** cooccurrence.go:28-31: the two count types. *)
Definition increment : string := "inc".
(** cooccurrence.go:30. *)
Definition proximity : string := "prox".

(** cooccurrence.go:33-35. *)
Definition err_count_type : string := "invalid relation type".
(** cooccurrence.go:67. *)
Definition err_zero_div : string := "Divide by zero on counting co-occurrence".

(** cooccurrence.go:37-41, [Cooccurrence]. *)
Record cooc := { co_typ : string; co_ma : list (Z * f64) }.

(** cooccurrence.go:43-52, [New]. *)
Definition co_new (typ : string) : outcome cooc :=
  if (negb (String.eqb typ increment) && negb (String.eqb typ proximity))%bool
  then Err err_count_type
  else Ret {| co_typ := typ; co_ma := [] |}.

(** cooccurrence.go:58-75, [Add]. *)
Definition co_add (c : cooc) (left right : Z) : cooc * outcome unit :=
  let enc := encode_bigram (wrap64 left) (wrap64 right) in
  let put (val : f64) :=
    let old := match mget Z.eq_dec enc (co_ma c) with Some v => v | None => fzero end in
    ({| co_typ := co_typ c; co_ma := mset Z.eq_dec enc (fadd old val) (co_ma c) |}, Ret tt) in
  if String.eqb (co_typ c) increment then put (f_of_Z 1)
  else if String.eqb (co_typ c) proximity then
    let div := wrap_int (left - right) in
    if div =? 0 then (c, Err err_zero_div)
    else put (fdiv (f_of_Z 1) (fabs (f_of_Z div)))
  else (c, Err err_count_type).
