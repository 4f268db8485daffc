(** * Facts about float64: order embedding into the reals, rounding. *)
From Coq Require Import ZArith Reals Bool Lra Lia Psatz.
From Flocq Require Import Core BinarySingleNaN.
From Verif.Lib Require Import F64.
Local Open Scope R_scope.

(** Round to nearest even in binary64 (unbounded above). *)
Definition rnd (x : R) : R := round radix2 (SpecFloat.fexp 53 1024) ZnearestE x.
Definition F64MAX : R := bpow radix2 1024.

Notation is_fin := (is_finite (prec:=53) (emax:=1024)).
Notation isnan := (is_nan (prec:=53) (emax:=1024)).
Notation f2r := (B2R (prec:=53) (emax:=1024)).

#[export] Instance fexp53_valid : Valid_exp (SpecFloat.fexp 53 1024).
Proof. apply (FLT_exp_valid (SpecFloat.emin 53 1024) 53). Qed.
#[export] Instance fexp53_mono : Monotone_exp (SpecFloat.fexp 53 1024).
Proof. apply (FLT_exp_monotone (SpecFloat.emin 53 1024) 53). Qed.

(** ** Order embedding: NaN-free floats into R, infinities at +-2^1024 *)
Definition fkey (x : f64) : R :=
  match x with
  | B754_infinity true => - F64MAX
  | B754_infinity false => F64MAX
  | _ => f2r x
  end.

Lemma fkey_fin x : is_fin x = true -> fkey x = f2r x.
Proof. destruct x as [s|s| |s m e H]; simpl; intros; try discriminate; reflexivity. Qed.

Lemma f2r_bound (x : f64) : Rabs (f2r x) < F64MAX.
Proof. apply abs_B2R_lt_emax. Qed.

Lemma F64MAX_pos : 0 < F64MAX.
Proof. apply bpow_gt_0. Qed.

Lemma fin_not_nan x : is_fin x = true -> isnan x = false.
Proof. destruct x; simpl; congruence. Qed.

Lemma Bcompare_key x y : isnan x = false -> isnan y = false ->
  Bcompare x y = Some (Rcompare (fkey x) (fkey y)).
Proof.
  intros Hx Hy. pose proof F64MAX_pos as HM.
  destruct (is_fin x) eqn:Fx; destruct (is_fin y) eqn:Fy.
  - rewrite !fkey_fin by auto. now apply Bcompare_correct.
  - rewrite (fkey_fin x) by auto. pose proof (f2r_bound x) as B. apply Rabs_lt_inv in B.
    destruct y as [s|[]| |s m e H]; try discriminate; cbn [fkey].
    + rewrite Rcompare_Gt by lra. destruct x as [s|s| |s m e H]; try discriminate; reflexivity.
    + rewrite Rcompare_Lt by lra. destruct x as [s|s| |s m e H]; try discriminate; reflexivity.
  - rewrite (fkey_fin y) by auto. pose proof (f2r_bound y) as B. apply Rabs_lt_inv in B.
    destruct x as [s|[]| |s m e H]; try discriminate; cbn [fkey].
    + rewrite Rcompare_Lt by lra. destruct y as [s|s| |s m e H]; try discriminate; reflexivity.
    + rewrite Rcompare_Gt by lra. destruct y as [s|s| |s m e H]; try discriminate; reflexivity.
  - destruct x as [s|[]| |s m e H]; try discriminate;
    destruct y as [s'|[]| |s' m' e' H']; try discriminate; cbn [fkey].
    + rewrite Rcompare_Eq by lra; reflexivity.
    + rewrite Rcompare_Lt by lra; reflexivity.
    + rewrite Rcompare_Gt by lra; reflexivity.
    + rewrite Rcompare_Eq by lra; reflexivity.
Qed.

Lemma Bcompare_nan_l y : @Bcompare 53 1024 B754_nan y = None.
Proof. destruct y; reflexivity. Qed.
Lemma Bcompare_nan_r x : @Bcompare 53 1024 x B754_nan = None.
Proof. destruct x as [s|[]| |[] m e H]; reflexivity. Qed.

Lemma Bcompare_None x y : isnan x = true \/ isnan y = true -> Bcompare x y = None.
Proof.
  intros [H|H]; [destruct x|destruct y]; try discriminate.
  - apply Bcompare_nan_l.
  - apply Bcompare_nan_r.
Qed.

Ltac fcmp_tac :=
  match goal with
  | |- context [Bcompare ?x ?y] =>
      destruct (isnan x) eqn:?Nx;
      [ rewrite (Bcompare_None x y) by auto
      | destruct (isnan y) eqn:?Ny;
        [ rewrite (Bcompare_None x y) by auto
        | rewrite (Bcompare_key x y) by auto; destruct (Rcompare_spec (fkey x) (fkey y)) ] ]
  end.

Lemma flt_spec x y : flt x y = true <-> isnan x = false /\ isnan y = false /\ fkey x < fkey y.
Proof. unfold flt. fcmp_tac; split; intros H'; try congruence; try (destruct H' as [? [? ?]]; congruence || lra); auto. Qed.

Lemma fgt_spec x y : fgt x y = true <-> isnan x = false /\ isnan y = false /\ fkey x > fkey y.
Proof. unfold fgt. fcmp_tac; split; intros H'; try congruence; try (destruct H' as [? [? ?]]; congruence || lra); auto. Qed.

Lemma fle_spec x y : fle x y = true <-> isnan x = false /\ isnan y = false /\ fkey x <= fkey y.
Proof. unfold fle. fcmp_tac; split; intros H'; try congruence; try (destruct H' as [? [? ?]]; congruence || lra); repeat split; auto; lra. Qed.

Lemma fge_spec x y : fge x y = true <-> isnan x = false /\ isnan y = false /\ fkey x >= fkey y.
Proof. unfold fge. fcmp_tac; split; intros H'; try congruence; try (destruct H' as [? [? ?]]; congruence || lra); repeat split; auto; lra. Qed.

Lemma feq_spec x y : feq x y = true <-> isnan x = false /\ isnan y = false /\ fkey x = fkey y.
Proof. unfold feq. fcmp_tac; split; intros H'; try congruence; try (destruct H' as [? [? ?]]; congruence || lra); repeat split; auto; lra. Qed.

Lemma fgt_flt x y : fgt x y = flt y x.
Proof.
  destruct (fgt x y) eqn:E.
  - symmetry. apply flt_spec. apply fgt_spec in E. destruct E as [? [? ?]]. repeat split; auto.
  - destruct (flt y x) eqn:E'; auto. apply flt_spec in E'.
    assert (fgt x y = true) by (apply fgt_spec; destruct E' as [? [? ?]]; repeat split; auto).
    congruence.
Qed.

(** ** Rounding of the operations *)
Lemma round_mode_NE : round_mode mode_NE = ZnearestE.
Proof. reflexivity. Qed.

Lemma rnd_generic (x : f64) : rnd (f2r x) = f2r x.
Proof. apply round_generic; [apply valid_rnd_N|apply generic_format_B2R]. Qed.

Lemma rnd_le x y : x <= y -> rnd x <= rnd y.
Proof. intros H. apply round_le; auto with typeclass_instances. Qed.

Lemma rnd_0 : rnd 0 = 0.
Proof. apply round_0; auto with typeclass_instances. Qed.

Lemma rnd_opp x : rnd (- x) = - rnd x.
Proof. apply round_NE_opp. Qed.

Lemma rnd_abs x : rnd (Rabs x) = Rabs (rnd x).
Proof. apply round_NE_abs; auto with typeclass_instances. Qed.

(** A float bounds its neighbourhood: rounding cannot cross a representable number. *)
Lemma rnd_le_f x (b : f64) : x <= f2r b -> rnd x <= f2r b.
Proof. intros H. rewrite <- rnd_generic. now apply rnd_le. Qed.
Lemma rnd_ge_f x (b : f64) : f2r b <= x -> f2r b <= rnd x.
Proof. intros H. rewrite <- (rnd_generic b). now apply rnd_le. Qed.

Lemma Rlt_bool_MAX_true x : Rabs x < F64MAX -> Rlt_bool (Rabs x) (bpow radix2 1024) = true.
Proof. intros H. now apply Rlt_bool_true. Qed.

Lemma fadd_fin x y : is_fin x = true -> is_fin y = true ->
  Rabs (rnd (f2r x + f2r y)) < F64MAX ->
  f2r (fadd x y) = rnd (f2r x + f2r y) /\ is_fin (fadd x y) = true.
Proof.
  intros Hx Hy Hb. pose proof (Bplus_correct 53 1024 _ _ mode_NE x y Hx Hy) as H.
  rewrite round_mode_NE in H. fold (rnd (f2r x + f2r y)) in H.
  rewrite Rlt_bool_MAX_true in H by auto. unfold fadd. tauto.
Qed.

Lemma fsub_fin x y : is_fin x = true -> is_fin y = true ->
  Rabs (rnd (f2r x - f2r y)) < F64MAX ->
  f2r (fsub x y) = rnd (f2r x - f2r y) /\ is_fin (fsub x y) = true.
Proof.
  intros Hx Hy Hb. pose proof (Bminus_correct 53 1024 _ _ mode_NE x y Hx Hy) as H.
  rewrite round_mode_NE in H. fold (rnd (f2r x - f2r y)) in H.
  rewrite Rlt_bool_MAX_true in H by auto. unfold fsub. tauto.
Qed.

Lemma fmul_fin x y : is_fin x = true -> is_fin y = true ->
  Rabs (rnd (f2r x * f2r y)) < F64MAX ->
  f2r (fmul x y) = rnd (f2r x * f2r y) /\ is_fin (fmul x y) = true.
Proof.
  intros Hx Hy Hb. pose proof (Bmult_correct 53 1024 _ _ mode_NE x y) as H.
  rewrite round_mode_NE in H. fold (rnd (f2r x * f2r y)) in H.
  rewrite Rlt_bool_MAX_true in H by auto. unfold fmul.
  rewrite Hx, Hy in H. tauto.
Qed.

Lemma fdiv_fin x y : is_fin x = true -> f2r y <> 0 ->
  Rabs (rnd (f2r x / f2r y)) < F64MAX ->
  f2r (fdiv x y) = rnd (f2r x / f2r y) /\ is_fin (fdiv x y) = true.
Proof.
  intros Hx Hy Hb. pose proof (Bdiv_correct 53 1024 _ _ mode_NE x y Hy) as H.
  rewrite round_mode_NE in H. fold (rnd (f2r x / f2r y)) in H.
  rewrite Rlt_bool_MAX_true in H by auto. unfold fdiv.
  rewrite Hx in H. tauto.
Qed.

Lemma fsqrt_real x : f2r (fsqrt x) = rnd (sqrt (f2r x)).
Proof. apply (Bsqrt_correct 53 1024 _ _ mode_NE x). Qed.

Lemma fsqrt_fin x : is_fin x = true -> 0 < f2r x -> is_fin (fsqrt x) = true.
Proof.
  intros Hf Hx. destruct (Bsqrt_correct 53 1024 _ _ mode_NE x) as [_ [H _]].
  unfold fsqrt. rewrite H. destruct x as [s|s| |[] m e He]; try discriminate; auto.
  exfalso. simpl in Hx. apply Rlt_not_le in Hx. apply Hx.
  apply Rlt_le. now apply F2R_lt_0.
Qed.

(** ** Integers *)
Lemma IZR_F2R z : F2R (Float radix2 z 0) = IZR z.
Proof. unfold F2R; simpl; ring. Qed.

Lemma generic_IZR z : (Z.abs z <= 2 ^ 53)%Z ->
  generic_format radix2 (SpecFloat.fexp 53 1024) (IZR z).
Proof.
  intros Hz. change (generic_format radix2 (FLT_exp (-1074) 53) (IZR z)).
  destruct (Z.eq_dec (Z.abs z) (2 ^ 53)) as [E|E].
  - assert (Hc : (z = 2 ^ 53 \/ z = - 2 ^ 53)%Z) by lia.
    destruct Hc as [-> | ->].
    + replace (IZR (2 ^ 53)) with (bpow radix2 53) by (rewrite <- IZR_Zpower by lia; reflexivity).
      apply generic_format_bpow. unfold FLT_exp; lia.
    + rewrite opp_IZR. apply generic_format_opp.
      replace (IZR (2 ^ 53)) with (bpow radix2 53) by (rewrite <- IZR_Zpower by lia; reflexivity).
      apply generic_format_bpow. unfold FLT_exp; lia.
  - apply generic_format_FLT. apply (FLT_spec _ _ _ _ (Float radix2 z 0)).
    + now rewrite IZR_F2R.
    + simpl. lia.
    + simpl; lia.
Qed.

Lemma rnd_IZR z : (Z.abs z <= 2 ^ 53)%Z -> rnd (IZR z) = IZR z.
Proof. intros H. apply round_generic; [apply valid_rnd_N|]. now apply generic_IZR. Qed.

Lemma IZR_lt_MAX z : (Z.abs z <= 2 ^ 1000)%Z -> Rabs (IZR z) < F64MAX.
Proof.
  intros H. rewrite <- abs_IZR. unfold F64MAX.
  apply Rle_lt_trans with (IZR (2 ^ 1000)); [now apply IZR_le|].
  replace (2 ^ 1000)%Z with (radix2 ^ 1000)%Z by reflexivity.
  rewrite IZR_Zpower by lia. apply bpow_lt. lia.
Qed.

Lemma f_of_Z_exact z : (Z.abs z <= 2 ^ 53)%Z ->
  f2r (f_of_Z z) = IZR z /\ is_fin (f_of_Z z) = true.
Proof.
  intros Hz. pose proof (binary_normalize_correct 53 1024 _ _ mode_NE z 0 false) as H.
  cbv zeta in H. rewrite round_mode_NE, IZR_F2R in H. fold (rnd (IZR z)) in H.
  rewrite rnd_IZR in H by auto.
  rewrite Rlt_bool_MAX_true in H.
  - unfold f_of_Z. tauto.
  - apply IZR_lt_MAX. apply Z.le_trans with (1 := Hz). apply Z.pow_le_mono_r; lia.
Qed.

Lemma f_of_Z_nonneg z : (0 <= z <= 2 ^ 53)%Z -> Bsign (f_of_Z z) = false.
Proof.
  intros Hz. pose proof (binary_normalize_correct 53 1024 _ _ mode_NE z 0 false) as H.
  cbv zeta in H. rewrite round_mode_NE, IZR_F2R in H. fold (rnd (IZR z)) in H.
  rewrite rnd_IZR in H by lia.
  rewrite Rlt_bool_MAX_true in H.
  - destruct H as [_ [_ H]]. unfold f_of_Z. rewrite H.
    destruct (Rcompare_spec (IZR z) 0) as [Hl| |]; auto.
    apply lt_IZR in Hl. lia.
  - apply IZR_lt_MAX. apply Z.le_trans with (2 ^ 53)%Z; [lia|]. apply Z.pow_le_mono_r; lia.
Qed.

Lemma fzero_r : f2r fzero = 0. Proof. reflexivity. Qed.

(** [f_to_Z] truncates. *)
Lemma Btrunc_Ztrunc (x : f64) : Btrunc x = Ztrunc (f2r x).
Proof.
  apply eq_IZR. rewrite Btrunc_correct; [|apply emax1024].
  rewrite round_FIX_IZR. reflexivity.
Qed.

Lemma f_to_Z_fin x : is_fin x = true -> (- 2 ^ 63 <= Ztrunc (f2r x) < 2 ^ 63)%Z ->
  f_to_Z x = Some (Ztrunc (f2r x)).
Proof.
  intros Hf Hr. destruct x as [s|s| |s m e He]; try discriminate.
  - simpl. now rewrite Ztrunc_IZR.
  - unfold f_to_Z. rewrite Btrunc_Ztrunc.
    replace ((- 2 ^ 63 <=? Ztrunc (f2r (B754_finite s m e He)))%Z &&
             (Ztrunc (f2r (B754_finite s m e He)) <? 2 ^ 63)%Z) with true; auto.
    symmetry. apply andb_true_intro. split; [apply Z.leb_le|apply Z.ltb_lt]; lia.
Qed.

(** ** Concrete values, rounding errors *)
Lemma fshow_spec x m e : fshow x = Some (m, e) -> is_fin x = true /\ f2r x = IZR m * bpow radix2 e.
Proof.
  destruct x as [s|s| |s m' e' H]; simpl; try discriminate.
  - intros E. injection E as <- <-. split; [reflexivity|]. simpl. ring.
  - intros E. injection E as <- <-. split; [reflexivity|]. unfold F2R. simpl. destruct s; reflexivity.
Qed.

Lemma rnd_err y e : (-1000 <= e)%Z -> Rabs y < bpow radix2 e -> Rabs (rnd y - y) <= bpow radix2 (e - 54).
Proof.
  intros He Hy. destruct (Req_dec y 0) as [->|Hn].
  - rewrite rnd_0, Rminus_0_r, Rabs_R0. apply bpow_ge_0.
  - unfold rnd. eapply Rle_trans; [apply error_le_half_ulp; apply fexp53_valid|].
    rewrite ulp_neq_0 by auto. change (/ 2) with (bpow radix2 (-1)). rewrite <- bpow_plus. apply bpow_le.
    unfold cexp. assert (Hm : (mag radix2 y <= e)%Z) by (apply mag_le_bpow; auto).
    unfold SpecFloat.fexp, SpecFloat.emin. lia.
Qed.

Lemma rnd_small x (b : f64) : Rabs x <= f2r b -> Rabs (rnd x) < F64MAX.
Proof.
  intros H. rewrite <- rnd_abs. apply Rle_lt_trans with (f2r b).
  - apply rnd_le_f; auto.
  - apply Rle_lt_trans with (Rabs (f2r b)); [apply Rle_abs|apply f2r_bound].
Qed.

(** Floats in [2^(e-1), 2^e) are integer multiples of 2^(e-53). *)
Lemma f_multiple (x : f64) e : (-1000 <= e)%Z -> bpow radix2 (e - 1) <= Rabs (f2r x) < bpow radix2 e ->
  exists k, f2r x = IZR k * bpow radix2 (e - 53).
Proof.
  intros He Hx. pose proof (generic_format_B2R 53 1024 x) as G. unfold generic_format in G.
  assert (Hc : cexp radix2 (SpecFloat.fexp 53 1024) (f2r x) = (e - 53)%Z).
  { unfold cexp. rewrite (mag_unique radix2 (f2r x) e Hx). unfold SpecFloat.fexp, SpecFloat.emin. lia. }
  rewrite Hc in G. eexists. exact G.
Qed.
