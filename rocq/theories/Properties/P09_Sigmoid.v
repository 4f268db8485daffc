(** * C29-C30: the sigmoid table *)
From Coq Require Import Lia Reals Lra PeanoNat.
From Flocq Require Import Core BinarySingleNaN.
From Verif.Lib Require Import Go F64 F64Facts.
From Verif.Model Require Import Sigmoid.
From Verif.Spec Require Import Logistic.
From Verif.Proofs Require Sigmoid Logistic.
Local Open Scope Z_scope.

(** C29. [x] is the only float64 of value 6 - 2^-50, the largest below 6. *)
Definition just_below_6 (x : f64) : Prop := is_fin x = true /\ f2r x = (6 - bpow radix2 (-50))%R.

Theorem C29_sigmoid_index : forall (exp : f64 -> f64) x,
  fgt x (f_of_Z (-6)) = true -> flt x (f_of_Z 6) = true ->
  (just_below_6 x -> sigmoid (sig_table exp) x = Panic) /\
  (~ just_below_6 x -> exists v, sigmoid (sig_table exp) x = Ret v /\ In v (sig_table exp)).
Proof. exact Sigmoid.sigmoid_index_lemma. Qed.
Print Assumptions C29_sigmoid_index.

Theorem C29_just_below_6_is_largest : forall x, is_fin x = true -> (f2r x < 6)%R ->
  (f2r x <= 6 - bpow radix2 (-50))%R.
Proof. exact Sigmoid.just_below_6_largest. Qed.
Print Assumptions C29_just_below_6_is_largest.

(** The guards of the callers are [x <= -6] and [x >= 6]: NaN passes both. *)
Theorem C29_sigmoid_nan : forall exp : f64 -> f64,
  fle fnan (f_of_Z (-6)) = false /\ fge fnan (f_of_Z 6) = false /\ sigmoid (sig_table exp) fnan = Panic.
Proof. exact Sigmoid.sigmoid_nan_lemma. Qed.
Print Assumptions C29_sigmoid_nan.

(** C30. Entries are in [0,1] whatever positive finite values math.Exp returns on [-7, 7]. *)
Theorem C30_sigmoid_range : forall (exp : f64 -> f64),
  (forall x, is_fin x = true -> (Rabs (f2r x) <= 7)%R -> is_fin (exp x) = true /\ (0 < f2r (exp x))%R) ->
  length (sig_table exp) = 1000%nat /\
  (forall v, In v (sig_table exp) -> fle fzero v = true /\ fle v (f_of_Z 1) = true) /\
  (forall x v, sigmoid (sig_table exp) x = Ret v -> fle fzero v = true /\ fle v (f_of_Z 1) = true).
Proof. exact Sigmoid.sigmoid_range_lemma. Qed.
Print Assumptions C30_sigmoid_range.

(** For -6 < x < 6 (not the last one) the value is the table entry of a grid point [g] = 12 i/1000 - 6
    (up to rounding: the entry is [sig_entry (exp e)] for a float [e] within 10^-12 of [g]) at most
    0.0121 below x, and the index is monotone in x. *)
Theorem C30_sigmoid_grid : forall exp x,
  fgt x (f_of_Z (-6)) = true -> flt x (f_of_Z 6) = true -> ~ just_below_6 x ->
  exists i e, 0 <= i < 1000 /\
    sigmoid (sig_table exp) x = Ret (fdiv (exp e) (fadd (exp e) (f_of_Z 1))) /\
    is_fin e = true /\ (Rabs (f2r e - (12 * IZR i / 1000 - 6)) <= / 10 ^ 12)%R /\
    (- / 10 ^ 12 <= f2r x - (12 * IZR i / 1000 - 6) <= 12 / 1000 + / 10 ^ 12)%R.
Proof. exact Sigmoid.sigmoid_grid_lemma. Qed.
Print Assumptions C30_sigmoid_grid.

(** Monotone: if [x <= y] then the entry selected for [y] is not before the one selected for [x];
    so for a table with non-decreasing entries the result is non-decreasing. *)
Theorem C30_sigmoid_monotone : forall (table : list f64) x y a b,
  (forall i j u v, (i <= j)%nat -> nth_error table i = Some u -> nth_error table j = Some v -> fle u v = true) ->
  fgt x (f_of_Z (-6)) = true -> flt y (f_of_Z 6) = true -> fle x y = true ->
  sigmoid table x = Ret a -> sigmoid table y = Ret b -> fle a b = true.
Proof. exact Sigmoid.sigmoid_mono_lemma. Qed.
Print Assumptions C30_sigmoid_monotone.

(** With an exponential of relative accuracy 2^-40 on [-7, 7] the 1000 entries strictly increase, so the
    result is indeed non-decreasing in the score. *)
Theorem C30_table_increasing : forall exp, exp_accurate exp -> forall i j u v, (i < j)%nat ->
  nth_error (sig_table exp) i = Some u -> nth_error (sig_table exp) j = Some v -> flt u v = true.
Proof. intros exp HA i j u v. apply Logistic.table_increasing. exact HA. Qed.
Print Assumptions C30_table_increasing.

Theorem C30_sigmoid_increasing : forall exp x y a b, exp_accurate exp ->
  fgt x (f_of_Z (-6)) = true -> flt y (f_of_Z 6) = true -> fle x y = true ->
  sigmoid (sig_table exp) x = Ret a -> sigmoid (sig_table exp) y = Ret b -> fle a b = true.
Proof.
  intros exp x y a b HA Hx Hy L Sx Sy. apply (C30_sigmoid_monotone (sig_table exp) x y a b); auto.
  intros i j u v Hij Hu Hv. apply Nat.lt_eq_cases in Hij. destruct Hij as [Hij| ->].
  - pose proof (Logistic.table_increasing exp i j u v HA Hij Hu Hv) as F. apply flt_spec in F. apply fle_spec. destruct F as (A & B & C). split; [exact A|]. split; [exact B|]. left. exact C.
  - rewrite Hu in Hv. injection Hv as ->. apply nth_error_In in Hu.
    destruct (Sigmoid.sigmoid_range_lemma exp) as (_ & R & _).
    { intros z Fz Bz. destruct (HA z Fz Bz) as (F & E). split; [exact F|]. pose proof (exp_pos (f2r z)) as P. apply Rabs_le_inv in E. replace (2 ^ 40)%R with 1099511627776%R in E by lra. lra. }
    destruct (R v Hu) as (R1 & _). apply fle_spec in R1. apply fle_spec. destruct R1 as (_ & N & _). split; [exact N|]. split; [exact N|]. apply Rle_refl.
Qed.
Print Assumptions C30_sigmoid_increasing.

Example C29_case :
  sig_index (f_dec 5 1) = 541 /\ sig_index (f_dec (-5999) 3) = 0 /\ sig_index (f_dec 5999 3) = 999 /\
  sig_index (f_of_ratio false (6 * 2 ^ 50 - 1) (2 ^ 50)) = 1000.
Proof. vm_compute. auto. Qed.
