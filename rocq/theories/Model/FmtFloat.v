(** * Model of the verb %f of fmt (used at pkg/model/modelutil/vector/vector.go:54)

    fmt.Fprintf("%f", x) is strconv.FormatFloat(x, 'f', 6, 64): the exact value rounded half to even
    to six fractional digits. Written here from its documentation; package strconv is not part of
    the repository. *)
From Flocq Require Import Core BinarySingleNaN.
From Verif.Lib Require Import Go F64.
Local Open Scope Z_scope.

(** Used for vector.go:54. *)
Definition digit (d : Z) : byte := nth (Z.to_nat d) (bs "0123456789") "0"%byte.

(** The decimal digits of n >= 0; [fuel] >= log2 n suffices. Used for vector.go:54. *)
Fixpoint digits (fuel : nat) (n : Z) : gostring :=
  match fuel with
  | O => [digit (n mod 10)]
  | S f => if n <? 10 then [digit n] else digits f (n / 10) ++ [digit (n mod 10)]
  end.
(** The digits before the point; used for vector.go:54. *)
Definition int_digits (n : Z) : gostring := digits (Z.to_nat (Z.log2 n)) n.

(** The [k] lowest digits of n. Used for vector.go:54. *)
Fixpoint low_digits (k : nat) (n : Z) : gostring :=
  match k with O => [] | S k' => low_digits k' (n / 10) ++ [digit (n mod 10)] end.

(** a / b rounded to the nearest integer, ties to even (b > 0). Used for vector.go:54. *)
Definition div_half_even (a b : Z) : Z :=
  let q := a / b in let r := a mod b in
  match Z.compare (2 * r) b with
  | Lt => q
  | Eq => if Z.even q then q else q + 1
  | Gt => q + 1
  end.

(** m * 2^e in millionths. Used for vector.go:54. *)
Definition millionths (m : positive) (e : Z) : Z :=
  div_half_even (Zpos m * 2 ^ (Z.max e 0) * 1000000) (2 ^ (Z.max (- e) 0)).

(** Sign, digits, point and six digits; used for vector.go:54. *)
Definition fmt_fixed6 (neg : bool) (n : Z) : gostring :=
  (if neg then bs "-" else []) ++ int_digits (n / 1000000) ++ bs "." ++ low_digits 6 (n mod 1000000).

(** [fmt.Sprintf("%f", x)], vector.go:54, search.go:44. *)
Definition fmt_f (x : f64) : gostring :=
  match x with
  | B754_nan => bs "NaN"
  | B754_infinity s => if s then bs "-Inf" else bs "+Inf"
  | B754_zero s => fmt_fixed6 s 0
  | B754_finite s m e _ => fmt_fixed6 s (millionths m e)
  end.
