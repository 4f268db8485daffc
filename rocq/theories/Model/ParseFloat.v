(** * A parser for decimal numbers

    The repository calls strconv.ParseFloat(s, 64) (pkg/embedding/embedding.go:119), which is not part
    of it. The theorems take any parser that [reads_decimals] (Spec/Decimal.v). This one shows that
    there is such a parser; it accepts an optional sign, digits, and optionally a point and digits,
    and the names of the special values as fmt writes them. It has no exponents, hexadecimal floats
    or other spellings. *)
From Flocq Require Import Core BinarySingleNaN.
From Verif.Lib Require Import Go F64.
Local Open Scope Z_scope.

(** A digit; for embedding.go:119. *)
Definition digit_of (b : byte) : option Z :=
  let c := Z.of_N (Byte.to_N b) in if (48 <=? c) && (c <=? 57) then Some (c - 48) else None.

(** Reads digits, accumulating; returns the number, the count and the rest. For embedding.go:119. *)
Fixpoint read_digits (t : gostring) (acc : Z) (cnt : nat) : Z * nat * gostring :=
  match t with
  | b :: t' => match digit_of b with
               | Some d => read_digits t' (10 * acc + d) (S cnt)
               | None => (acc, cnt, t)
               end
  | [] => (acc, cnt, t)
  end.

(** n / 10^k with a sign; [None] beyond the largest float64 (strconv.ErrRange). For embedding.go:119. *)
Definition decimal_to_float (neg : bool) (n : Z) (k : nat) : option f64 :=
  match n with
  | Zpos p => let y := f_of_ratio neg p (Z.to_pos (10 ^ Z.of_nat k)) in if is_finite y then Some y else None
  | _ => Some (B754_zero neg)
  end.

(** strconv.ParseFloat as far as described above, for embedding.go:119. *)
Definition parse_float (t : gostring) : option f64 :=
  if gseqb t (bs "+Inf") then Some (finf false)
  else if gseqb t (bs "-Inf") then Some (finf true)
  else if gseqb t (bs "NaN") then Some fnan
  else
    let '(neg, u) := match t with
                     | b :: t' => if byte_eq_dec b "-"%byte then (true, t')
                                  else if byte_eq_dec b "+"%byte then (false, t') else (false, t)
                     | [] => (false, t) end in
    let '(n, a, rest) := read_digits u 0 0 in
    match rest with
    | [] => if (a =? 0)%nat then None else decimal_to_float neg n 0
    | b :: rest' =>
        if byte_eq_dec b "."%byte then
          let '(n', k, rest'') := read_digits rest' n 0 in
          if (a + k =? 0)%nat then None
          else match rest'' with [] => decimal_to_float neg n' k | _ => None end
        else None
    end.
