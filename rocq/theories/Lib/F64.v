(** * Go's float64: IEEE 754 binary64 with round-to-nearest-even.

    The type and operations are Flocq's [BinarySingleNaN] at precision 53 and
    maximal exponent 1024: signed zeros, infinities, subnormals, and one NaN (NaN
    payloads are not observable in the modelled code). Assumption recorded in
    DESIGN.md: no fused multiply-add (Go on amd64 does not fuse). *)
From Coq Require Import ZArith Bool.
From Flocq Require Import Core BinarySingleNaN.
Local Open Scope Z_scope.

Definition f64 : Type := binary_float 53 1024.

#[export] Instance prec53 : Prec_gt_0 53 := eq_refl.
#[export] Instance emax1024 : Prec_lt_emax 53 1024 := eq_refl.

Definition fadd (x y : f64) : f64 := Bplus mode_NE x y.
Definition fsub (x y : f64) : f64 := Bminus mode_NE x y.
Definition fmul (x y : f64) : f64 := Bmult mode_NE x y.
Definition fdiv (x y : f64) : f64 := Bdiv mode_NE x y.
(** [math.Sqrt] is specified as correctly rounded. *)
Definition fsqrt (x : f64) : f64 := Bsqrt mode_NE x.
Definition fopp (x : f64) : f64 := Bopp x.
(** [math.Abs]. *)
Definition fabs (x : f64) : f64 := Babs x.

(** Comparison operators; all are false when an operand is NaN. *)
Definition flt (x y : f64) : bool := match Bcompare x y with Some Lt => true | _ => false end.
Definition fgt (x y : f64) : bool := match Bcompare x y with Some Gt => true | _ => false end.
Definition fle (x y : f64) : bool := match Bcompare x y with Some (Lt | Eq) => true | _ => false end.
Definition fge (x y : f64) : bool := match Bcompare x y with Some (Gt | Eq) => true | _ => false end.
Definition feq (x y : f64) : bool := match Bcompare x y with Some Eq => true | _ => false end.

Definition fzero : f64 := B754_zero false.
Definition fnan : f64 := B754_nan.
Definition finf (neg : bool) : f64 := B754_infinity neg.

(** Conversion [float64(n)] of a Go integer. *)
Definition f_of_Z (n : Z) : f64 := binary_normalize 53 1024 _ _ mode_NE n 0 false.

(** Conversion [int(x)]: truncation toward zero. Outside the range of int64, and for
    NaN and infinities, the Go result is implementation-defined: [None]. *)
Definition f_to_Z (x : f64) : option Z :=
  match x with
  | B754_zero _ => Some 0
  | B754_finite _ _ _ _ =>
      let t := Btrunc x in
      if (- 2 ^ 63 <=? t) && (t <? 2 ^ 63) then Some t else None
  | _ => None
  end.

(** [math.Trunc] on values that are integers below 2^53 in magnitude is the identity; in
    general it drops the fractional part. *)
Definition ftrunc (x : f64) : f64 := Bnearbyint mode_ZR x.

(** The float64 nearest to the rational [num/den] (ties to even, overflow to infinity):
    used for decimal literals and for strconv.ParseFloat. *)
Definition f_of_ratio (neg : bool) (num den : positive) : f64 :=
  SF2B _ (proj1 (Bdiv_correct_aux 53 1024 _ _ mode_NE neg num 0 false den 0)).

(** Decimal literal [n / 10^k]. *)
Definition f_dec (n : Z) (k : nat) : f64 :=
  match n with
  | Z0 => fzero
  | Zpos p => f_of_ratio false p (10 ^ Pos.of_nat k)
  | Zneg p => f_of_ratio true p (10 ^ Pos.of_nat k)
  end.

(** What a float64 denotes in a test: integer mantissa and exponent. *)
Definition fshow (x : f64) : option (Z * Z) :=
  match x with
  | B754_zero _ => Some (0, 0)
  | B754_finite s m e _ => Some ((if s then Zneg m else Zpos m), e)
  | _ => None
  end.
