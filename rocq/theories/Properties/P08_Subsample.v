(** * C27-C28: subsampling *)
From Coq Require Import Reals.
From Flocq Require Import Core BinarySingleNaN.
From Verif.Lib Require Import Go F64 F64Facts.
From Verif.Model Require Import Dictionary Subsample.
From Verif.Proofs Require Subsample.

(** C27. New never fails; the value stored for an id with frequency [f] is [sample_of t f], the
    float64 expression max(0, 1 - sqrt(t/f)) (written out in C27_threshold_real over the reals
    with explicit rounding [rnd]). *)
Theorem C27_subsample_values : forall calls t,
  let d := fold_left dict_add calls dict_new in
  (Z.of_nat (length (concat calls)) <= 2 ^ 53)%Z ->
  exists samples, subsample_new d t = Ret samples /\ length samples = dict_len d /\
  forall i f, i < dict_len d -> dict_id_freq d (Z.of_nat i) = Ret f ->
    1 <= f /\ (Z.of_nat f <= 2 ^ 53)%Z /\ nth_error samples i = Some (sample_of t f).
Proof. exact Subsample.subsample_lemma. Qed.
Print Assumptions C27_subsample_values.

Theorem C27_threshold_real : forall t f,
  is_fin t = true -> (0 <= f2r t)%R -> 1 <= f -> (Z.of_nat f <= 2 ^ 53)%Z ->
  is_fin (sample_of t f) = true /\
  f2r (sample_of t f) = Rmax 0 (rnd (1 - rnd (sqrt (rnd (f2r t / INR f))))).
Proof. exact Subsample.sample_of_real. Qed.
Print Assumptions C27_threshold_real.

Theorem C27_threshold_range : forall t f,
  fge t fzero = true -> 1 <= f -> (Z.of_nat f <= 2 ^ 53)%Z ->
  fle fzero (sample_of t f) = true /\ fle (sample_of t f) (f_of_Z 1) = true.
Proof. exact Subsample.sample_range_lemma. Qed.
Print Assumptions C27_threshold_range.

(** Trial compares with the draw; threshold 0 accepts every draw in [0,1). *)
Theorem C27_trial : forall samples id s draw, nth_error samples id = Some s ->
  trial samples id draw = Ret (fgt s draw).
Proof. intros samples id s draw H. unfold trial. rewrite H. reflexivity. Qed.
Print Assumptions C27_trial.

Theorem C27_zero_accepts : forall sign f draw, 1 <= f -> (Z.of_nat f <= 2 ^ 53)%Z ->
  fle fzero draw = true /\ flt draw (f_of_Z 1) = true ->
  fgt (sample_of (B754_zero sign) f) draw = true.
Proof. exact Subsample.sample_zero_thr. Qed.
Print Assumptions C27_zero_accepts.

Theorem C27_large_rejects : forall t f draw,
  fge t (f_of_Z (Z.of_nat f)) = true -> 1 <= f -> (Z.of_nat f <= 2 ^ 53)%Z ->
  fle fzero draw = true -> fgt (sample_of t f) draw = false.
Proof. exact Subsample.sample_big_thr. Qed.
Print Assumptions C27_large_rejects.

Theorem C27_negative_rejects : forall t f draw, 1 <= f -> (Z.of_nat f <= 2 ^ 53)%Z ->
  t = fnan \/ t = finf true \/ (is_fin t = true /\ (f2r t <= - bpow radix2 (-1000))%R) ->
  fgt (sample_of t f) draw = false.
Proof. exact Subsample.sample_neg_thr. Qed.
Print Assumptions C27_negative_rejects.

(** The bound on |t| is needed: a negative subnormal t can underflow to -0 and accept everything. *)
Theorem C27_negative_underflow : exists t, fgt fzero t = true /\ sample_of t 2 = f_of_Z 1.
Proof. exists (fopp (f_of_ratio false 1 (2 ^ 1074))). split; reflexivity. Qed.
Print Assumptions C27_negative_underflow.

Example C27_case :
  fshow (sample_of (f_dec 1 3) 4) = fshow (f_dec 9841886116991581 16) /\
  fgt (sample_of (f_dec 1 3) 4) (f_dec 98 2) = true /\ fgt (sample_of (f_dec 1 3) 4) (f_dec 99 2) = false.
Proof. vm_compute. auto. Qed.

(** C28. For a common draw, acceptance of a word implies acceptance of every more frequent word:
    the threshold is monotone in the frequency. *)
Theorem C28_frequent_words_kept_more : forall t f1 f2,
  fge t fzero = true -> 1 <= f1 -> f1 <= f2 -> (Z.of_nat f2 <= 2 ^ 53)%Z ->
  fle (sample_of t f1) (sample_of t f2) = true.
Proof. exact Subsample.sample_mono_lemma. Qed.
Print Assumptions C28_frequent_words_kept_more.

Theorem C28_accept_monotone : forall t f1 f2 draw,
  fge t fzero = true -> 1 <= f1 -> f1 <= f2 -> (Z.of_nat f2 <= 2 ^ 53)%Z ->
  fgt (sample_of t f1) draw = true -> fgt (sample_of t f2) draw = true.
Proof.
  intros t f1 f2 draw Ht H1 H12 H2 Hd.
  pose proof (Subsample.sample_mono_lemma t f1 f2 Ht H1 H12 H2) as Hm.
  apply fle_spec in Hm. apply fgt_spec in Hd. apply fgt_spec.
  destruct Hm as (N1 & N2 & K1). destruct Hd as (_ & N3 & K2).
  split; [exact N2|]. split; [exact N3|]. apply Rge_gt_trans with (fkey (sample_of t f1)); [|exact K2].
  apply Rle_ge. exact K1.
Qed.
Print Assumptions C28_accept_monotone.

(** Strictly: at the default threshold 1e-3 a word seen once is kept with probability below one
    seen 1000 times. *)
Example C28_case :
  flt (sample_of (f_dec 1 3) 1) (sample_of (f_dec 1 3) 1000) = true.
Proof. vm_compute. reflexivity. Qed.
