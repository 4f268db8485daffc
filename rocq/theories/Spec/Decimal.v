(** * Decimal texts

    [value ds] reads a list of digit characters; [decimal t neg n k]: the text [t] is an optional
    minus sign, at least one digit without a superfluous leading zero, a point, and [k] digits, and
    so denotes the number n / 10^k, or its opposite. *)
From Coq Require Import Reals.
From Flocq Require Import Core BinarySingleNaN.
From Verif.Lib Require Import Go F64 F64Facts.
Local Open Scope Z_scope.

Definition digit_val (b : byte) : option Z :=
  let c := Z.of_N (Byte.to_N b) in if (48 <=? c) && (c <=? 57) then Some (c - 48) else None.
Definition is_digit (b : byte) : Prop := digit_val b <> None.
Definition value (ds : list byte) : Z :=
  fold_left (fun a b => 10 * a + match digit_val b with Some d => d | None => 0 end) ds 0.

Definition decimal (t : gostring) (neg : bool) (n : Z) (k : nat) : Prop :=
  exists ip fp, t = (if neg then bs "-" else []) ++ ip ++ bs "." ++ fp /\
    Forall is_digit ip /\ Forall is_digit fp /\ ip <> [] /\ (ip = bs "0" \/ hd_error ip <> Some "0"%byte) /\
    length fp = k /\ n = value (ip ++ fp).

(** What the code needs from strconv.ParseFloat(s, 64): on decimal texts it is correctly rounded
    (ties to even), with the sign of the text, and fails only beyond the largest float64; and it
    reads the names of the special values. Nothing is said about other texts. *)
Definition reads_decimals (pf : gostring -> option f64) : Prop :=
  (forall t neg n k, decimal t neg n k ->
     (rnd (IZR n / 10 ^ k) < F64MAX)%R ->
     exists y, pf t = Some y /\ is_fin y = true /\ Bsign y = neg /\
               f2r y = (if neg then - rnd (IZR n / 10 ^ k) else rnd (IZR n / 10 ^ k))%R) /\
  pf (bs "+Inf") = Some (finf false) /\ pf (bs "-Inf") = Some (finf true) /\ pf (bs "NaN") = Some fnan.
