(** * The sigmoid table against the logistic function *)
From Coq Require Import Lia Reals Lra.
From Flocq Require Import Core BinarySingleNaN.
From Verif.Lib Require Import Go F64 F64Facts.
From Verif.Spec Require Import Training Logistic.
From Verif.Model Require Import Sigmoid.
From Verif.Proofs Require Import Sigmoid Cosine.
Local Open Scope R_scope.

Lemma logistic_pos x : 0 < logistic x < 1.
Proof. unfold logistic. pose proof (exp_pos (- x)). split; [apply Rinv_0_lt_compat; lra|]. rewrite <- Rinv_1. apply Rinv_lt_contravar; lra. Qed.

Lemma logistic_alt x : logistic x = exp x / (exp x + 1).
Proof. unfold logistic. rewrite exp_Ropp. pose proof (exp_pos x). field. split; lra. Qed.

Lemma logistic_mono x y : x <= y -> logistic x <= logistic y.
Proof.
  intros H. unfold logistic. pose proof (exp_pos (- y)). apply Rinv_le_contravar; [lra|].
  destruct (Req_dec x y) as [->|N]; [lra|]. assert (exp (- y) < exp (- x)) by (apply exp_increasing; lra). lra.
Qed.

Lemma logistic_opp x : logistic (- x) = 1 - logistic x.
Proof. rewrite logistic_alt. unfold logistic. rewrite exp_Ropp. pose proof (exp_pos x). field. split; lra. Qed.

(** slope at most 1/4 *)
Lemma logistic_lip_lt x y : x < y -> 0 <= logistic y - logistic x <= (y - x) / 4.
Proof.
  intros H. split; [pose proof (logistic_mono x y ltac:(lra)); lra|].
  destruct (MVT_cor2 (fun t => 1 / (1 + exp (- t))) (fun t => exp (- t) * / (1 + exp (- t)) ^ 2) x y H) as (c & E & _).
  { intros c _. pose proof (exp_pos (- c)) as P.
    assert (D1 : derivable_pt_lim (fun t => 1 + exp (- t)) c (0 + exp (- c) * (- 1))).
    { apply derivable_pt_lim_plus; [apply derivable_pt_lim_const|].
      apply (derivable_pt_lim_comp (fun t => - t) exp); [apply (derivable_pt_lim_opp id c 1); apply derivable_pt_lim_id|apply derivable_pt_lim_exp]. }
    pose proof (derivable_pt_lim_div (fun _ => 1) (fun t => 1 + exp (- t)) c _ _ (derivable_pt_lim_const 1 c) D1 ltac:(cbn beta; lra)) as D2.
    unfold div_fct in D2. eapply (eq_rect _ (derivable_pt_lim _ c) D2). cbn beta. unfold Rsqr. field. lra. }
  replace (logistic y - logistic x) with (1 / (1 + exp (- y)) - 1 / (1 + exp (- x))) by (unfold logistic; unfold Rdiv; ring).
  rewrite E. unfold Rdiv. rewrite (Rmult_comm (y - x)). apply Rmult_le_compat_r; [lra|].
  pose proof (exp_pos (- c)) as P. set (q := exp (- c)) in *.
  apply (Rmult_le_reg_r ((1 + q) ^ 2)); [nra|]. rewrite Rmult_assoc, Rinv_l by nra. pose proof (Rle_0_sqr (1 - q)) as S. unfold Rsqr in S. nra.
Qed.

Lemma logistic_lip x y : Rabs (logistic y - logistic x) <= Rabs (y - x) / 4.
Proof.
  destruct (Rtotal_order x y) as [H|[->|H]].
  - pose proof (logistic_lip_lt x y H). rewrite !Rabs_pos_eq; lra.
  - unfold Rminus. rewrite !Rplus_opp_r, Rabs_R0. lra.
  - pose proof (logistic_lip_lt y x H). rewrite !Rabs_left1; lra.
Qed.

Lemma exp_pow x n : exp (INR n * x) = exp x ^ n.
Proof. induction n as [|n IH]; [cbn [INR pow]; rewrite Rmult_0_l; apply exp_0|]. rewrite S_INR, Rmult_plus_distr_r, Rmult_1_l, exp_plus, IH. cbn [pow]. ring. Qed.

Lemma exp6_big : 330 <= exp 6.
Proof.
  assert (E : exp 6 = exp (/ 64) ^ 384) by (rewrite <- exp_pow; f_equal; rewrite INR_IZR_INZ; cbn -[IZR]; lra).
  rewrite E. apply Rle_trans with ((65 / 64) ^ 384).
  - unfold Rdiv. rewrite Rpow_mult_distr, pow_inv. rewrite !pow_IZR.
    apply (Rmult_le_reg_r (IZR (64 ^ Z.of_nat 384))); [apply IZR_lt; reflexivity|].
    rewrite Rmult_assoc, Rinv_l, Rmult_1_r by (apply not_0_IZR; discriminate). rewrite <- mult_IZR. apply IZR_le. vm_compute. discriminate.
  - apply pow_incr. split; [lra|]. pose proof (exp_ineq1 (/ 64) ltac:(lra)). lra.
Qed.

Lemma logistic_m6 x : x <= -6 -> logistic x <= 31 / 10000.
Proof.
  intros H. eapply Rle_trans; [apply (logistic_mono x (-6)); exact H|]. unfold logistic.
  replace (- -6) with 6 by lra. pose proof exp6_big. apply (Rmult_le_reg_r (1 + exp 6)); [lra|]. rewrite Rinv_l; lra.
Qed.

Lemma exp_bounds x : Rabs x <= 7 -> / 2187 <= exp x <= 2187.
Proof.
  intros H. apply Rabs_le_inv in H. pose proof exp_le_3 as E3.
  assert (E7 : exp 7 <= 2187).
  { replace 7 with (INR 7 * 1) by (rewrite INR_IZR_INZ; cbn -[IZR]; lra). rewrite exp_pow. replace 2187 with (3 ^ 7) by lra. apply pow_incr. pose proof (exp_pos 1). lra. }
  assert (M : forall a b, a <= b -> exp a <= exp b).
  { intros a b [L| ->]; [left; apply exp_increasing; exact L|right; reflexivity]. }
  split; [|eapply Rle_trans; [apply M|exact E7]; lra].
  apply Rle_trans with (exp (Ropp 7)); [rewrite exp_Ropp; apply Rinv_le_contravar; [apply exp_pos|exact E7]|apply M; lra].
Qed.

Lemma pow40 : / 2 ^ 40 = / 1099511627776. Proof. f_equal. lra. Qed.

(** One table entry. *)
Lemma entry_close fexp e : exp_accurate fexp -> is_fin e = true -> Rabs (f2r e) <= 7 ->
  let v := sig_entry (fexp e) in is_fin v = true /\ 0 <= f2r v <= 1 /\ Rabs (f2r v - logistic (f2r e)) <= / 10 ^ 10.
Proof.
  intros HA Fe He. destruct (HA e Fe He) as (FE & EE). set (E := fexp e) in *. pose proof (exp_bounds _ He) as B.
  rewrite pow40 in EE. apply Rabs_le_inv in EE. set (q := exp (f2r e)) in *.
  assert (BE : / 2188 <= f2r E <= 2188) by lra.
  destruct (f_of_Z_exact 1) as (E1 & F1); [lia|].
  destruct (f_of_Z_exact 4000) as (E4 & F4); [lia|].
  destruct (fadd_fin E (f_of_Z 1) FE F1) as (Es & Fs).
  { rewrite E1. apply (rnd_small _ (f_of_Z 4000)). rewrite E4, Rabs_pos_eq; lra. }
  rewrite E1 in Es. pose proof (rnd_err_lra (f2r E + 1) 12 ltac:(lia) ltac:(simpl; rewrite Rabs_pos_eq; lra)) as Rs.
  rewrite <- Es in Rs. change (bpow radix2 (12 - 54)) with (/ 4398046511104) in Rs. set (s := fadd E (f_of_Z 1)) in *.
  assert (Ps : 1 < f2r s) by lra.
  assert (Hs : f2r E <= f2r s) by lra.
  assert (Hq : 0 <= f2r E / f2r s <= 1).
  { split; [apply Rmult_le_pos; [lra|apply Rlt_le, Rinv_0_lt_compat; lra]|].
    apply Rmult_le_reg_r with (f2r s); [lra|]. unfold Rdiv. rewrite Rmult_assoc, Rinv_l by lra. lra. }
  destruct (fdiv_fin E s FE) as (Ed & Fd); [lra| |].
  { apply (rnd_small _ (f_of_Z 1)). rewrite E1, Rabs_pos_eq; lra. }
  cbv zeta. unfold sig_entry. fold s. split; [exact Fd|]. split.
  { rewrite Ed. split; [rewrite <- rnd_0; apply rnd_le; lra|]. rewrite <- E1. apply rnd_le_f. rewrite E1. lra. }
  pose proof (rnd_err_lra (f2r E / f2r s) 1 ltac:(lia) ltac:(simpl; rewrite Rabs_pos_eq; lra)) as Rd. rewrite <- Ed in Rd. change (bpow radix2 (1 - 54)) with (/ 9007199254740992) in Rd.
  assert (ten10 : / 10 ^ 10 = / 10000000000) by (f_equal; lra). rewrite ten10.
  rewrite logistic_alt. fold q.
  assert (D : Rabs (f2r E / f2r s - q / (q + 1)) <= / 20000000000).
  { replace (f2r E / f2r s - q / (q + 1)) with ((f2r E - q + q * (f2r E + 1 - f2r s)) / (f2r s * (q + 1)) ) by (field; split; lra).
    assert (PD : q + 1 <= f2r s * (q + 1)) by nra.
    rewrite Rabs_div_pos by nra.
    apply (Rmult_le_reg_r (f2r s * (q + 1))); [nra|]. unfold Rdiv. rewrite Rmult_assoc, Rinv_l by nra. rewrite Rmult_1_r.
    apply Rle_trans with (/ 20000000000 * (q + 1)); [|nra].
    apply Rabs_le. split; nra. }
  apply Rabs_le_inv in D. apply Rabs_le. lra.
Qed.

(** The logistic function grows by at least a thousandth of a millionth per hundredth. *)
Lemma logistic_grows x y : Rabs x <= 7 -> Rabs y <= 7 -> x + / 100 <= y -> logistic x + / 1000000000 <= logistic y.
Proof.
  intros Hx Hy H. pose proof (exp_bounds x Hx) as Bx. pose proof (exp_bounds y Hy) as By.
  assert (E : exp x * (1 + / 100) <= exp y).
  { replace y with (x + (y - x)) by ring. rewrite exp_plus. apply Rmult_le_compat_l; [lra|]. pose proof (exp_ineq1_le (y - x)). lra. }
  rewrite !logistic_alt. set (p := exp x) in *. set (q := exp y) in *. clearbody p q.
  apply (Rmult_le_reg_r ((p + 1) * (q + 1))); [apply Rmult_lt_0_compat; lra|].
  replace ((p / (p + 1) + / 1000000000) * ((p + 1) * (q + 1))) with (p * (q + 1) + / 1000000000 * ((p + 1) * (q + 1))) by (field; lra).
  replace (q / (q + 1) * ((p + 1) * (q + 1))) with (q * (p + 1)) by (field; lra).
  assert (U : (p + 1) * (q + 1) <= (p * 2188) * 2188) by (apply Rmult_le_compat; lra). lra.
Qed.

(** The table increases. *)
Lemma table_increasing fexp i j u v : exp_accurate fexp -> (i < j)%nat ->
  nth_error (sig_table fexp) i = Some u -> nth_error (sig_table fexp) j = Some v -> flt u v = true.
Proof.
  intros HA Hij Hu Hv.
  assert (Hj : (j < 1000)%nat). { rewrite <- (sig_table_length fexp). apply nth_error_Some. congruence. }
  pose proof (sig_table_nth fexp (Z.of_nat i) ltac:(lia)) as Gu. pose proof (sig_table_nth fexp (Z.of_nat j) ltac:(lia)) as Gv.
  rewrite Nat2Z.id in Gu, Gv. rewrite Hu in Gu. rewrite Hv in Gv. injection Gu as ->. injection Gv as ->.
  destruct (sig_grid_real (Z.of_nat i) ltac:(lia)) as (Fi & Bi). destruct (sig_grid_real (Z.of_nat j) ltac:(lia)) as (Fj & Bj).
  rewrite ten12 in Bi, Bj. apply Rabs_le_inv in Bi. apply Rabs_le_inv in Bj.
  assert (Ii : 0 <= IZR (Z.of_nat i) <= 1000) by (split; [apply (IZR_le 0)|apply (IZR_le _ 1000)]; lia).
  assert (Ij : 0 <= IZR (Z.of_nat j) <= 1000) by (split; [apply (IZR_le 0)|apply (IZR_le _ 1000)]; lia).
  assert (D : IZR (Z.of_nat i) + 1 <= IZR (Z.of_nat j)) by (rewrite <- plus_IZR; apply IZR_le; lia).
  destruct (entry_close fexp _ HA Fi ltac:(apply Rabs_le; lra)) as (F1 & _ & C1). destruct (entry_close fexp _ HA Fj ltac:(apply Rabs_le; lra)) as (F2 & _ & C2).
  set (a := sig_grid (Z.of_nat i)) in *. set (b := sig_grid (Z.of_nat j)) in *. clearbody a b.
  pose proof (logistic_grows (f2r a) (f2r b) ltac:(apply Rabs_le; lra) ltac:(apply Rabs_le; lra) ltac:(lra)) as G.
  set (u := sig_entry (fexp a)) in *. set (v := sig_entry (fexp b)) in *. clearbody u v.
  replace (10 ^ 10) with 10000000000 in C1, C2 by lra. apply Rabs_le_inv in C1. apply Rabs_le_inv in C2.
  apply flt_spec. rewrite !fkey_fin by auto. split; [apply fin_not_nan; auto|]. split; [apply fin_not_nan; auto|]. lra.
Qed.

Lemma predict_close fexp x s : exp_accurate fexp -> is_fin x = true -> predict (sigmoid (sig_table fexp)) x = Ret s ->
  is_fin s = true /\ 0 <= f2r s <= 1 /\ Rabs (f2r s - logistic (f2r x)) <= 31 / 10000.
Proof.
  intros HA Fx. unfold predict. destruct six as (E6 & F6), msix as (M6 & G6).
  destruct (fle x (f_of_Z (-6))) eqn:L.
  - destruct (f_of_Z_exact 0) as (E0 & F0); [lia|]. set (z := f_of_Z 0) in *. clearbody z.
    intros H. injection H as <-. apply fle_spec in L. rewrite !fkey_fin, M6 in L by auto.
    rewrite E0. split; [exact F0|]. split; [lra|]. pose proof (logistic_m6 (f2r x) ltac:(tauto)). pose proof (logistic_pos (f2r x)). apply Rabs_le. lra.
  - destruct (fge x (f_of_Z 6)) eqn:G.
    + destruct (f_of_Z_exact 1) as (E1 & F1); [lia|]. set (z := f_of_Z 1) in *. clearbody z.
      intros H. injection H as <-. apply fge_spec in G. rewrite !fkey_fin, E6 in G by auto.
      rewrite E1. split; [exact F1|]. split; [lra|]. pose proof (logistic_m6 (- f2r x) ltac:(lra)) as H. rewrite logistic_opp in H. pose proof (logistic_pos (f2r x)). apply Rabs_le. lra.
    + intros H. assert (H1 : fgt x (f_of_Z (-6)) = true).
      { apply fgt_spec. rewrite !fkey_fin, M6 by auto. split; [apply fin_not_nan; auto|]. split; [apply fin_not_nan; auto|].
        apply Rnot_le_lt. intros C. assert (fle x (f_of_Z (-6)) = true); [|congruence]. apply fle_spec. rewrite !fkey_fin, M6 by auto. split; [apply fin_not_nan; auto|]. split; [apply fin_not_nan; auto|exact C]. }
      assert (H2 : flt x (f_of_Z 6) = true).
      { apply flt_spec. rewrite !fkey_fin, E6 by auto. split; [apply fin_not_nan; auto|]. split; [apply fin_not_nan; auto|].
        apply Rnot_le_lt. intros C. assert (fge x (f_of_Z 6) = true); [|congruence]. apply fge_spec. rewrite !fkey_fin, E6 by auto. split; [apply fin_not_nan; auto|]. split; [apply fin_not_nan; auto|]. apply Rle_ge. exact C. }
      destruct (range6 x H1 H2) as (_ & HR).
      assert (N : ~ just_below_6 x).
      { intros J. destruct (sigmoid_index_lemma fexp x H1 H2) as (P & _). rewrite (P J) in H. discriminate H. }
      destruct (sigmoid_grid_lemma fexp x H1 H2 N) as (i & e & Hi & Es & Fe & De & Dx).
      rewrite ten12 in De, Dx. apply Rabs_le_inv in De.
      assert (Ii : 0 <= IZR i <= 1000) by (split; [apply (IZR_le 0)|apply (IZR_le _ 1000)]; lia).
      destruct (entry_close fexp e HA Fe) as (Fv & Rv & Cv); [apply Rabs_le; lra|]. unfold sig_entry in Fv, Rv, Cv.
      set (v := fdiv (fexp e) (fadd (fexp e) (f_of_Z 1))) in *. clearbody v. rewrite Es in H. injection H as <-.
      split; [exact Fv|]. split; [exact Rv|].
      pose proof (logistic_lip (f2r x) (f2r e)) as LP. assert (Rabs (f2r e - f2r x) <= 12 / 1000 + 3 * / 1000000000000) by (apply Rabs_le; lra).
      replace (f2r v - logistic (f2r x)) with ((f2r v - logistic (f2r e)) + (logistic (f2r e) - logistic (f2r x))) by ring.
      eapply Rle_trans; [apply Rabs_triang|]. assert (/ 10 ^ 10 <= / 100000) by (replace (10 ^ 10) with 10000000000 by lra; lra). lra.
Qed.

(** ** Derivatives *)
Lemma logistic_deriv c : derivable_pt_lim logistic c (logistic c * (1 - logistic c)).
Proof.
  pose proof (exp_pos (- c)) as P.
  assert (D1 : derivable_pt_lim (fun t => 1 + exp (- t)) c (0 + exp (- c) * (- 1))).
  { apply derivable_pt_lim_plus; [apply derivable_pt_lim_const|].
    apply (derivable_pt_lim_comp (fun t => - t) exp); [apply (derivable_pt_lim_opp id c 1); apply derivable_pt_lim_id|apply derivable_pt_lim_exp]. }
  pose proof (derivable_pt_lim_div (fun _ => 1) (fun t => 1 + exp (- t)) c _ _ (derivable_pt_lim_const 1 c) D1 ltac:(cbn beta; lra)) as D2.
  intros eps He. destruct (D2 eps He) as (delta & H). exists delta. intros h H0 Hd. specialize (H h H0 Hd). unfold div_fct in H.
  replace ((logistic (c + h) - logistic c) / h - logistic c * (1 - logistic c)) with
    ((1 / (1 + exp (- (c + h))) - 1 / (1 + exp (- c))) / h - (0 * (1 + exp (- c)) - (0 + exp (- c) * -1) * 1) / (1 + exp (- c))²); [exact H|].
  unfold logistic, Rsqr. pose proof (exp_pos (- (c + h))). field. repeat split; lra.
Qed.

Lemma ln_logistic_deriv c : derivable_pt_lim (fun t => ln (logistic t)) c (1 - logistic c).
Proof.
  pose proof (logistic_pos c) as P. pose proof (derivable_pt_lim_comp logistic ln c _ _ (logistic_deriv c) (derivable_pt_lim_ln (logistic c) (proj1 P))) as D.
  eapply (eq_rect _ (derivable_pt_lim _ c) D). field. lra.
Qed.

Lemma ln_1_logistic_deriv c : derivable_pt_lim (fun t => ln (1 - logistic t)) c (0 - logistic c).
Proof.
  pose proof (logistic_pos c) as P.
  pose proof (derivable_pt_lim_minus (fun _ => 1) logistic c _ _ (derivable_pt_lim_const 1 c) (logistic_deriv c)) as D1.
  pose proof (derivable_pt_lim_comp (fun t => 1 - logistic t) ln c _ _ D1 (derivable_pt_lim_ln (1 - logistic c) ltac:(lra))) as D.
  eapply (eq_rect _ (derivable_pt_lim _ c) D). cbn beta. field. lra.
Qed.
