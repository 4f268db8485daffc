(** * C52, C53: numbers as text

    [fmt_f x] is the text that fmt writes for %f. [decimal t neg n k] (Spec/Decimal.v): t is the
    decimal text of n/10^k, with a minus sign if [neg]. [f2r x] is the real number of a float64. *)
From Coq Require Import Reals.
From Flocq Require Import BinarySingleNaN.
From Verif.Lib Require Import Go F64 F64Facts.
From Verif.Spec Require Import Tokens Decimal.
From Verif.Model Require Import FmtFloat ParseFloat.
From Verif.Proofs Require FmtFloat ParseFloat.
Local Open Scope Z_scope.

(** C52. The text of a finite float64 (sign included, also that of -0) is a decimal with exactly six
    fractional digits, no other such decimal is closer, and on a tie it ends in an even digit. *)
Theorem C52_closest : forall x : f64, is_fin x = true -> exists n,
  decimal (fmt_f x) (Bsign x) n 6 /\
  forall n', (Rabs (Rabs (f2r x) - IZR n / 10 ^ 6) <= Rabs (Rabs (f2r x) - IZR n' / 10 ^ 6))%R /\
             (n' <> n -> Rabs (Rabs (f2r x) - IZR n / 10 ^ 6) = Rabs (Rabs (f2r x) - IZR n' / 10 ^ 6) -> Z.even n = true)%R.
Proof. exact FmtFloat.fmt_f_closest. Qed.
Print Assumptions C52_closest.

Theorem C52_special : fmt_f fnan = bs "NaN" /\ fmt_f (finf false) = bs "+Inf" /\ fmt_f (finf true) = bs "-Inf".
Proof. repeat split. Qed.
Print Assumptions C52_special.

(** C52. No text is empty or contains white space. *)
Theorem C52_one_field : forall x : f64, fmt_f x <> [] /\ ~ has_space (fmt_f x).
Proof. intros x. destruct (FmtFloat.fmt_f_plain x) as [P N]. split; [exact N|]. apply FmtFloat.plain_no_space, P. Qed.
Print Assumptions C52_one_field.

Example C52_case :
  map (fun x => string_of_list_byte (fmt_f x)) [f_dec (-1234567890123) 7; f_dec 15 7; f_dec (-1) 9; f_of_Z (2 ^ 70)] =
  ["-123456.789012"; "0.000002"; "-0.000000"; "1180591620717411303424.000000"]%string.
Proof. vm_compute. reflexivity. Qed.
(** A genuine tie: 2^-7 = 0.0078125 has seven digits and rounds to the even 0.007812. *)
Example C52_case_tie : string_of_list_byte (fmt_f (fdiv (f_of_Z 1) (f_of_Z 128))) = "0.007812"%string.
Proof. vm_compute. reflexivity. Qed.

(** C53. Whatever float64 was written, reading its text succeeds; the number read is the float64
    nearest to the decimal, less than a millionth away from the original, and equal to it from 2^33
    on; infinities and NaN come back unchanged. *)
Theorem C53_read : forall pf, reads_decimals pf -> forall x : f64, exists y,
  pf (fmt_f x) = Some y /\
  (is_fin x = true -> is_fin y = true /\ Bsign y = Bsign x /\
     (exists n, decimal (fmt_f x) (Bsign x) n 6 /\ Rabs (f2r y) = rnd (IZR n / 10 ^ 6)) /\
     (Rabs (f2r y - f2r x) < 1 / 10 ^ 6)%R /\ (2 ^ 33 <= Rabs (f2r x) -> y = x)%R) /\
  (is_fin x = false -> y = x).
Proof. intros pf R x. destruct (FmtFloat.round_trip pf R x) as (y & P & _ & Q). exists y. auto. Qed.
Print Assumptions C53_read.

(** C53. Writing what was read gives the same text, so further cycles change nothing. *)
Theorem C53_stable : forall pf, reads_decimals pf -> forall (x y : f64),
  pf (fmt_f x) = Some y -> fmt_f y = fmt_f x /\ pf (fmt_f y) = Some y.
Proof.
  intros pf R x y P. destruct (FmtFloat.round_trip pf R x) as (y' & P' & T & _). rewrite P in P'.
  assert (y' = y) as -> by congruence. rewrite T. auto.
Qed.
Print Assumptions C53_stable.

(** There is such a parser. *)
Theorem C53_parser_exists : reads_decimals parse_float.
Proof. exact ParseFloat.parse_float_reads. Qed.
Print Assumptions C53_parser_exists.

Example C53_case :
  match parse_float (fmt_f (f_dec (-314159265) 8)) with
  | Some y => string_of_list_byte (fmt_f y) | None => ""%string end = "-3.141593"%string.
Proof. vm_compute. reflexivity. Qed.
