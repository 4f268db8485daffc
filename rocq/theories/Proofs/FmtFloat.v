From Coq Require Import Reals Lra Lia.
From Flocq Require Import Core BinarySingleNaN.
From Verif.Lib Require Import Go F64 F64Facts.
From Verif.Model Require Import FmtFloat.
From Verif.Spec Require Import Tokens Decimal.
Local Open Scope Z_scope.

(** ** Digits *)
Lemma digit_val_digit d : 0 <= d < 10 -> digit_val (digit d) = Some d.
Proof.
  intros H. assert (In d [0;1;2;3;4;5;6;7;8;9]) as Hi.
  { cbn. lia. }
  cbn in Hi. repeat (destruct Hi as [<-|Hi]; [reflexivity|]). destruct Hi.
Qed.
Lemma digit_is d : 0 <= d < 10 -> is_digit (digit d).
Proof. intros H. unfold is_digit. rewrite digit_val_digit by auto. discriminate. Qed.

Lemma value_fold l : forall a,
  fold_left (fun a b => 10 * a + match digit_val b with Some d => d | None => 0 end) l a = a * 10 ^ Z.of_nat (length l) + value l.
Proof.
  unfold value. induction l as [|b l IH]; intros a; cbn [fold_left length].
  - rewrite Z.pow_0_r. lia.
  - rewrite IH, (IH (10 * 0 + _)). rewrite Nat2Z.inj_succ, Z.pow_succ_r by lia. ring.
Qed.
Lemma value_app a b : value (a ++ b) = value a * 10 ^ Z.of_nat (length b) + value b.
Proof. unfold value at 1. rewrite fold_left_app. apply value_fold. Qed.
Lemma value_1 d : 0 <= d < 10 -> value [digit d] = d.
Proof. intros H. unfold value. cbn [fold_left]. rewrite digit_val_digit by auto. lia. Qed.

Lemma mod10 n : 0 <= n mod 10 < 10.
Proof. apply Z.mod_pos_bound. lia. Qed.

Lemma low_digits_spec k : forall n, 0 <= n < 10 ^ Z.of_nat k ->
  length (low_digits k n) = k /\ Forall is_digit (low_digits k n) /\ value (low_digits k n) = n.
Proof.
  induction k as [|k IH]; intros n H; cbn [low_digits].
  - change (10 ^ Z.of_nat 0) with 1 in H. repeat split; auto. cbn. lia.
  - rewrite Nat2Z.inj_succ, Z.pow_succ_r in H by lia.
    destruct (IH (n / 10)) as (L & F & V). { split; [apply Z.div_pos; lia|]. apply Z.div_lt_upper_bound; lia. }
    pose proof (mod10 n). rewrite app_length, L. repeat split.
    + cbn. lia.
    + apply Forall_app; split; auto. constructor; auto. apply digit_is; auto.
    + rewrite value_app, V, value_1 by auto. cbn [length]. change (10 ^ Z.of_nat 1) with 10. pose proof (Z.div_mod n 10). lia.
Qed.

Lemma digits_spec fuel : forall n, 0 <= n < 10 * 2 ^ Z.of_nat fuel ->
  digits fuel n <> [] /\ Forall is_digit (digits fuel n) /\ value (digits fuel n) = n /\
  (digits fuel n = bs "0" \/ hd_error (digits fuel n) <> Some "0"%byte).
Proof.
  assert (Z10 : forall n, 0 <= n < 10 -> [digit n] <> [] /\ Forall is_digit [digit n] /\ value [digit n] = n /\
     ([digit n] = bs "0" \/ hd_error [digit n] <> Some "0"%byte)).
  { intros n H. split; [discriminate|]. split; [constructor; [apply digit_is; auto|constructor]|]. split; [apply value_1; auto|].
    destruct (Z.eq_dec n 0) as [->|Hn]; [left; reflexivity|right].
    assert (In n [1;2;3;4;5;6;7;8;9]) as Hi.
    { cbn. lia. }
    cbn in Hi. repeat (destruct Hi as [<-|Hi]; [discriminate|]). destruct Hi. }
  induction fuel as [|fuel IH]; intros n H; cbn [digits].
  - change (2 ^ Z.of_nat 0) with 1 in H. rewrite Z.mod_small by lia. apply Z10. lia.
  - destruct (Z.ltb_spec n 10); [apply Z10; lia|].
    rewrite Nat2Z.inj_succ, Z.pow_succ_r in H by lia.
    destruct (IH (n / 10)) as (N & F & V & Hd).
    { split; [apply Z.div_pos; lia|]. apply Z.div_lt_upper_bound; lia. }
    pose proof (mod10 n). split; [destruct (digits fuel (n / 10)); discriminate|].
    split; [apply Forall_app; split; auto; constructor; auto; apply digit_is; auto|].
    split.
    + rewrite value_app, V, value_1 by auto. cbn [length]. change (10 ^ Z.of_nat 1) with 10. pose proof (Z.div_mod n 10). lia.
    + right. destruct (digits fuel (n / 10)) as [|b l] eqn:E; [tauto|]. destruct Hd as [Hd|Hd]; [|exact Hd].
      exfalso. rewrite Hd in V. change (value (bs "0")) with 0 in V.
      assert (1 <= n / 10) by (apply Z.div_le_lower_bound; lia). lia.
Qed.

Lemma int_digits_spec n : 0 <= n ->
  int_digits n <> [] /\ Forall is_digit (int_digits n) /\ value (int_digits n) = n /\
  (int_digits n = bs "0" \/ hd_error (int_digits n) <> Some "0"%byte).
Proof.
  intros H. apply digits_spec. split; [auto|].
  rewrite Z2Nat.id by apply Z.log2_nonneg. destruct (Z.eq_dec n 0) as [->|]; [cbn; lia|].
  destruct (Z.log2_spec n) as [_ U]; [lia|]. rewrite Z.pow_succ_r in U by apply Z.log2_nonneg. lia.
Qed.

Lemma fmt_fixed6_decimal neg n : 0 <= n -> decimal (fmt_fixed6 neg n) neg n 6.
Proof.
  intros H. assert (0 <= n mod 1000000 < 1000000) as Hm by (apply Z.mod_pos_bound; lia).
  destruct (int_digits_spec (n / 1000000)) as (N & F & V & Hd); [apply Z.div_pos; lia|].
  destruct (low_digits_spec 6 (n mod 1000000)) as (L' & F' & V'); [exact Hm|].
  exists (int_digits (n / 1000000)), (low_digits 6 (n mod 1000000)).
  split; [reflexivity|]. repeat split; auto.
  rewrite value_app, V, V', L'. change (10 ^ Z.of_nat 6) with 1000000. pose proof (Z.div_mod n 1000000). lia.
Qed.

(** ** Rounding *)
Lemma div_half_even_spec a b : 0 < b -> div_half_even a b = ZnearestE (IZR a / IZR b).
Proof.
  intros Hb. unfold div_half_even, Znearest. rewrite Zfloor_div by lia.
  assert (HbR : (0 < IZR b)%R) by (apply IZR_lt; auto).
  assert (E : (IZR a / IZR b - IZR (a / b) = IZR (a mod b) / IZR b)%R).
  { assert (IZR a = IZR b * IZR (a / b) + IZR (a mod b))%R as ->.
    { rewrite <- mult_IZR, <- plus_IZR. f_equal. apply Z.div_mod. lia. }
    field. lra. }
  rewrite E.
  assert (C : Rcompare (IZR (a mod b) / IZR b) (/ 2) = Z.compare (2 * (a mod b)) b).
  { rewrite <- (Rcompare_mult_r (2 * IZR b)) by lra.
    replace (IZR (a mod b) / IZR b * (2 * IZR b))%R with (IZR (2 * (a mod b))) by (rewrite mult_IZR; field; lra).
    replace (/ 2 * (2 * IZR b))%R with (IZR b) by field. apply Rcompare_IZR. }
  rewrite C. assert (Hc : 2 * (a mod b) >= b -> Zceil (IZR a / IZR b) = a / b + 1).
  { intros Hr. rewrite Zceil_floor_neq; [rewrite Zfloor_div by lia; reflexivity|].
    rewrite Zfloor_div by lia. intros Q.
    assert (IZR (a mod b) / IZR b = 0)%R by lra.
    assert (IZR (a mod b) = 0)%R. { replace (IZR (a mod b)) with (IZR (a mod b) / IZR b * IZR b)%R by (field; lra). rewrite H. ring. }
    apply eq_IZR in H0. lia. }
  destruct (Z.compare_spec (2 * (a mod b)) b).
  - destruct (Z.even (a / b)); cbn [negb]; [reflexivity|]. rewrite Hc by lia. reflexivity.
  - reflexivity.
  - rewrite Hc by lia. reflexivity.
Qed.

Lemma millionths_spec m e : millionths m e = ZnearestE (IZR (Zpos m) * bpow radix2 e * 1000000).
Proof.
  unfold millionths. rewrite div_half_even_spec by (apply Z.pow_pos_nonneg; lia). f_equal.
  rewrite !mult_IZR. destruct (Z.leb_spec 0 e).
  - rewrite (Z.max_l e), (Z.max_r (- e)) by lia. change (2 ^ e) with (radix2 ^ e). rewrite (IZR_Zpower radix2 e) by lia. change (2 ^ 0) with 1. field.
  - rewrite (Z.max_r e), (Z.max_l (- e)) by lia. change (2 ^ (- e)) with (radix2 ^ (- e)). rewrite (IZR_Zpower radix2 (- e)) by lia. rewrite bpow_opp. change (2 ^ 0) with 1.
    field. apply Rgt_not_eq, bpow_gt_0.
Qed.

(** The number of millionths written for a finite float64. *)
Definition micro (x : f64) : Z := ZnearestE (Rabs (f2r x) * 1000000).

Lemma ZnearestE_0 : ZnearestE 0 = 0.
Proof. apply (Znearest_imp _ 0 0). simpl. rewrite Rminus_0_r, Rabs_R0. lra. Qed.

Lemma fmt_f_fin x : is_fin x = true -> fmt_f x = fmt_fixed6 (Bsign x) (micro x).
Proof.
  destruct x as [s|s| |s m e Hb]; cbn [is_fin is_finite]; try discriminate; intros _.
  - unfold micro. change (f2r (B754_zero s)) with 0%R. rewrite Rabs_R0, Rmult_0_l, ZnearestE_0. reflexivity.
  - cbn [fmt_f Bsign]. f_equal. rewrite millionths_spec. unfold micro. f_equal. f_equal.
    change (f2r (B754_finite s m e Hb)) with (F2R (Float radix2 (cond_Zopp s (Zpos m)) e)).
    rewrite <- F2R_Zabs, abs_cond_Zopp. reflexivity.
Qed.

Lemma micro_nonneg x : 0 <= micro x.
Proof.
  unfold micro. rewrite <- ZnearestE_0. apply (@Zrnd_le ZnearestE _). pose proof (Rabs_pos (f2r x)); lra.
Qed.

Lemma ZnearestE_err r : (Rabs (r - IZR (ZnearestE r)) <= / 2)%R.
Proof. apply Znearest_half. Qed.

Lemma ZnearestE_best r n : (Rabs (r - IZR (ZnearestE r)) <= Rabs (r - IZR n))%R.
Proof.
  destruct (Z.eq_dec n (ZnearestE r)) as [->|H]; [apply Rle_refl|].
  pose proof (ZnearestE_err r). set (k := ZnearestE r) in *.
  assert (1 <= Rabs (IZR k - IZR n))%R.
  { rewrite <- minus_IZR, <- abs_IZR. apply IZR_le. lia. }
  pose proof (Rabs_triang (IZR k - r) (r - IZR n)) as T.
  replace (IZR k - r + (r - IZR n))%R with (IZR k - IZR n)%R in T by ring.
  rewrite (Rabs_minus_sym (IZR k) r) in T. lra.
Qed.

Lemma ZnearestE_tie r n : n <> ZnearestE r -> (Rabs (r - IZR (ZnearestE r)) = Rabs (r - IZR n))%R -> Z.even (ZnearestE r) = true.
Proof.
  intros H E. pose proof (ZnearestE_err r) as He.
  assert (Hh : (Rabs (r - IZR (ZnearestE r)) = / 2)%R).
  { set (k := ZnearestE r) in *. assert (1 <= Rabs (IZR k - IZR n))%R.
    { rewrite <- minus_IZR, <- abs_IZR. apply IZR_le. lia. }
    pose proof (Rabs_triang (IZR k - r) (r - IZR n)) as T.
    replace (IZR k - r + (r - IZR n))%R with (IZR k - IZR n)%R in T by ring.
    rewrite (Rabs_minus_sym (IZR k) r) in T. lra. }
  clear E H He n. unfold Znearest in *.
  pose proof (Zfloor_lb r) as L. pose proof (Zfloor_ub r) as U.
  destruct (Rcompare_spec (r - IZR (Zfloor r)) (/ 2)) as [C|C|C].
  - rewrite Rabs_pos_eq in Hh by lra. lra.
  - destruct (Z.even (Zfloor r)) eqn:Ev; cbn [negb] in *; [auto|].
    rewrite Zceil_floor_neq by lra. rewrite Z.even_add. rewrite Ev. reflexivity.
  - rewrite Zceil_floor_neq in Hh by lra. rewrite plus_IZR in Hh. rewrite Rabs_left1 in Hh by lra. lra.
Qed.

Definition micro_r (x : f64) : R := (IZR (micro x) / 1000000)%R.

Lemma micro_near x : (Rabs (Rabs (f2r x) - micro_r x) <= / 2 / 1000000)%R.
Proof.
  unfold micro_r, micro. pose proof (ZnearestE_err (Rabs (f2r x) * 1000000)) as H. set (k := ZnearestE _) in *.
  replace (Rabs (f2r x) - IZR k / 1000000)%R with ((Rabs (f2r x) * 1000000 - IZR k) / 1000000)%R by field.
  unfold Rdiv. rewrite Rabs_mult, (Rabs_pos_eq (/ 1000000)) by lra. lra.
Qed.

Lemma micro_exact_IZR x k : f2r x = IZR k -> micro x = Z.abs k * 1000000.
Proof. intros H. unfold micro. rewrite H, <- abs_IZR, <- mult_IZR. apply (@Zrnd_IZR ZnearestE _). Qed.

Lemma bpow_IZR e : 0 <= e -> bpow radix2 e = IZR (2 ^ e).
Proof. intros H. change (2 ^ e) with (radix2 ^ e). rewrite IZR_Zpower by auto. reflexivity. Qed.

(** Above 2^33 the text determines the number. *)
Lemma micro_large x : is_fin x = true -> (bpow radix2 33 <= Rabs (f2r x))%R -> rnd (micro_r x) = Rabs (f2r x).
Proof.
  intros Hf H. set (a := Rabs (f2r x)) in *.
  assert (Ha0 : (a <> 0)%R) by (pose proof (bpow_gt_0 radix2 33); lra).
  set (e := mag radix2 a : Z).
  assert (Hae : (bpow radix2 (e - 1) <= a < bpow radix2 e)%R).
  { assert (Ra : Rabs a = a) by apply Rabs_Rabsolu.
    pose proof (bpow_mag_le radix2 a Ha0) as P. pose proof (bpow_mag_gt radix2 a) as Q. rewrite Ra in P, Q. exact (conj P Q). }
  clearbody e.
  assert (He : 34 <= e). { assert (33 < e); [|lia]. apply (lt_bpow radix2). lra. }
  destruct (f_multiple (Babs x) e) as [k Hk]; [lia| |].
  { rewrite (B2R_Babs 53 1024 x). fold a. rewrite Rabs_pos_eq by (pose proof (Rabs_pos (f2r x)); auto). auto. }
  rewrite (B2R_Babs 53 1024 x) in Hk. fold a in Hk.
  assert (Hb : (0 < bpow radix2 (e - 53))%R) by apply bpow_gt_0.
  assert (Hb1 : (bpow radix2 (-19) <= bpow radix2 (e - 53))%R) by (apply bpow_le; lia).
  assert (E1 : bpow radix2 (e - 1) = (IZR (2 ^ 52) * bpow radix2 (e - 53))%R).
  { rewrite <- bpow_IZR by lia. rewrite <- bpow_plus. f_equal. lia. }
  assert (E2 : bpow radix2 e = (IZR (2 ^ 53) * bpow radix2 (e - 53))%R).
  { rewrite <- bpow_IZR by lia. rewrite <- bpow_plus. f_equal. lia. }
  assert (Hk1 : 2 ^ 52 <= k < 2 ^ 53).
  { split; [apply le_IZR|apply lt_IZR]; apply (Rmult_le_reg_r (bpow radix2 (e - 53))) || apply (Rmult_lt_reg_r (bpow radix2 (e - 53))); lra. }
  assert (Hs : (bpow radix2 (-19) = / 524288)%R) by reflexivity.
  pose proof (micro_near x) as Hn. fold a in Hn.
  destruct (Z.eq_dec k (2 ^ 52)) as [K|K].
  - (* a power of two is an integer *)
    assert (Hi : a = IZR (2 ^ (e - 1))). { rewrite <- bpow_IZR by lia. rewrite E1, <- K. exact Hk. }
    assert (Em : micro_r x = a).
    { unfold micro_r. replace (micro x) with (2 ^ (e - 1) * 1000000).
      - rewrite mult_IZR, <- Hi. field.
      - unfold micro. fold a. rewrite Hi, <- mult_IZR. symmetry. apply (@Zrnd_IZR ZnearestE _). }
    rewrite Em. unfold a. rewrite rnd_abs, rnd_generic. reflexivity.
  - assert (Hlo : (bpow radix2 (e - 1) <= micro_r x < bpow radix2 e)%R).
    { apply Rabs_le_inv in Hn. assert (IZR (2 ^ 52) + 1 <= IZR k)%R by (rewrite <- plus_IZR; apply IZR_le; lia).
      assert (IZR k <= IZR (2 ^ 53) - 1)%R by (rewrite <- minus_IZR; apply IZR_le; lia).
      assert ((IZR (2 ^ 52) + 1) * bpow radix2 (e - 53) <= a)%R by (rewrite Hk; apply Rmult_le_compat_r; lra).
      assert (a <= (IZR (2 ^ 53) - 1) * bpow radix2 (e - 53))%R by (rewrite Hk; apply Rmult_le_compat_r; lra).
      lra. }
    unfold rnd, round, scaled_mantissa, F2R. cbn [Fnum Fexp].
    assert (Hc : cexp radix2 (SpecFloat.fexp 53 1024) (micro_r x) = (e - 53)).
    { unfold cexp. rewrite (mag_unique_pos radix2 (micro_r x) e Hlo). unfold SpecFloat.fexp, SpecFloat.emin. lia. }
    rewrite Hc. rewrite Hk. f_equal. f_equal. apply Znearest_imp.
    replace (micro_r x * bpow radix2 (- (e - 53)) - IZR k)%R with ((micro_r x - a) / bpow radix2 (e - 53))%R.
    2: { rewrite Hk, bpow_opp. field. lra. }
    unfold Rdiv. rewrite Rabs_mult, (Rabs_pos_eq (/ _)) by (left; apply Rinv_0_lt_compat; auto).
    rewrite Rabs_minus_sym. apply (Rmult_lt_reg_r (bpow radix2 (e - 53))); [auto|].
    rewrite Rmult_assoc, Rinv_l by lra. lra.
Qed.

(** Below 2^33 the error of reading is less than half a millionth. *)
Lemma micro_small x : (Rabs (f2r x) < bpow radix2 33)%R -> (Rabs (rnd (micro_r x) - micro_r x) < / 2 / 1000000)%R.
Proof.
  intros H. assert (E33 : bpow radix2 33 = IZR 8589934592) by reflexivity.
  assert (Hle : (0 <= micro_r x <= bpow radix2 33)%R).
  { unfold micro_r. split; [apply Rmult_le_pos; [apply IZR_le, micro_nonneg|lra]|].
    assert (micro x <= 8589934592 * 1000000).
    { unfold micro. rewrite <- (@Zrnd_IZR ZnearestE _ (8589934592 * 1000000)). apply (@Zrnd_le ZnearestE _). rewrite mult_IZR. lra. }
    apply IZR_le in H0. rewrite mult_IZR in H0. lra. }
  destruct (Req_dec (micro_r x) (bpow radix2 33)) as [E|E].
  - rewrite E. rewrite E33. rewrite rnd_IZR by lia. rewrite Rminus_diag_eq by reflexivity. rewrite Rabs_R0. lra.
  - eapply Rle_lt_trans; [apply (rnd_err _ 33); [lia|rewrite Rabs_pos_eq; lra]|].
    change (bpow radix2 (33 - 54)) with (/ 2097152)%R. lra.
Qed.

Lemma micro_r_0 x : (0 <= micro_r x)%R.
Proof. unfold micro_r. apply Rmult_le_pos; [apply IZR_le, micro_nonneg|lra]. Qed.
Lemma rnd_micro_0 x : (0 <= rnd (micro_r x))%R.
Proof. rewrite <- rnd_0. apply rnd_le, micro_r_0. Qed.

Lemma rnd_micro_lt x : is_fin x = true -> (rnd (micro_r x) < F64MAX)%R.
Proof.
  intros Hf. destruct (Rle_or_lt (bpow radix2 33) (Rabs (f2r x))) as [H|H].
  - rewrite micro_large by auto. apply f2r_bound.
  - pose proof (micro_small x H) as Hs. pose proof (micro_near x) as Hn. apply Rabs_def2 in Hs. apply Rabs_le_inv in Hn.
    apply Rlt_trans with (bpow radix2 34); [|apply bpow_lt; lia].
    change (bpow radix2 33) with 8589934592%R in H. change (bpow radix2 34) with 17179869184%R. lra.
Qed.

(** Writing, reading and writing again gives the same number of millionths. *)
Lemma micro_again x y : is_fin x = true -> Rabs (f2r y) = rnd (micro_r x) -> micro y = micro x.
Proof.
  intros Hf E. unfold micro at 1. rewrite E. destruct (Rle_or_lt (bpow radix2 33) (Rabs (f2r x))) as [H|H].
  - rewrite micro_large by auto. reflexivity.
  - apply Znearest_imp. pose proof (micro_small x H) as Hs.
    replace (rnd (micro_r x) * 1000000 - IZR (micro x))%R with ((rnd (micro_r x) - micro_r x) * 1000000)%R by (unfold micro_r; field).
    rewrite Rabs_mult, (Rabs_pos_eq 1000000) by lra. lra.
Qed.

Lemma micro_close x y : is_fin x = true -> Rabs (f2r y) = rnd (micro_r x) -> (Rabs (Rabs (f2r y) - Rabs (f2r x)) < / 1000000)%R.
Proof.
  intros Hf ->. destruct (Rle_or_lt (bpow radix2 33) (Rabs (f2r x))) as [H|H].
  - rewrite micro_large by auto. rewrite Rminus_diag_eq by reflexivity. rewrite Rabs_R0. lra.
  - pose proof (micro_small x H) as Hs. pose proof (micro_near x) as Hn. apply Rabs_def2 in Hs. apply Rabs_le_inv in Hn.
    apply Rabs_def1; lra.
Qed.

(** ** Spaces *)
Lemma digit_not_space b : is_digit b -> ~ is_space [b] /\ forall s, is_space s -> hd_error s <> Some b.
Proof.
  intros H. assert (forall s, is_space s -> hd_error s <> Some b) as K.
  { intros s Hs E. unfold is_space, space_encodings in Hs. cbn in Hs.
    repeat (destruct Hs as [<-|Hs]; [cbn in E; injection E as <-; apply H; reflexivity|]). destruct Hs. }
  split; [|exact K]. intros Hs. apply (K _ Hs). reflexivity.
Qed.

(** Bytes that begin no space. *)
Definition plain (b : byte) : Prop := forall s, is_space s -> hd_error s <> Some b.

Lemma space_hd s : is_space s -> exists b r, s = b :: r.
Proof. intros H. unfold is_space, space_encodings in H. cbn in H. repeat (destruct H as [<-|H]; [eauto|]). destruct H. Qed.

Lemma plain_no_space l : Forall plain l -> ~ has_space l.
Proof.
  intros F (a & s & b & Hs & ->). destruct (space_hd s Hs) as (c & r & ->).
  rewrite Forall_app in F. destruct F as [_ F]. inversion F as [|? ? Hc _]; subst. apply (Hc _ Hs). reflexivity.
Qed.

Lemma plain_lit b : In b (bs "-+.InfNa0123456789") -> plain b.
Proof.
  intros H s Hs E. unfold is_space, space_encodings in Hs. cbn in Hs.
  repeat (destruct Hs as [<-|Hs]; [cbn in E; injection E as <-; cbn in H; intuition discriminate|]). destruct Hs.
Qed.

Lemma decimal_plain t neg n k : decimal t neg n k -> Forall plain t.
Proof.
  intros (ip & fp & -> & Fi & Ff & _).
  assert (D : forall l, Forall is_digit l -> Forall plain l).
  { intros l. apply Forall_impl. intros b Hb. exact (proj2 (digit_not_space b Hb)). }
  apply Forall_app; split; [destruct neg; constructor; [apply plain_lit; cbn; auto|constructor]|].
  apply Forall_app; split; [auto|]. constructor; [apply plain_lit; cbn; auto|auto].
Qed.

Lemma fmt_f_plain x : Forall plain (fmt_f x) /\ fmt_f x <> [].
Proof.
  destruct (is_fin x) eqn:F.
  - rewrite fmt_f_fin by auto. pose proof (fmt_fixed6_decimal (Bsign x) (micro x) (micro_nonneg x)) as D. split.
    + eapply decimal_plain; eauto.
    + destruct D as (ip & fp & -> & _). intros E. apply app_eq_nil in E. destruct E as [_ E]. apply app_eq_nil in E. destruct E as [_ E]. discriminate.
  - destruct x as [s|s| |s m e Hb]; try discriminate F; [destruct s|]; (split; [|discriminate]);
      repeat (constructor; [apply plain_lit; cbn; tauto|]); constructor.
Qed.

(** ** C52 *)
Lemma pow10_6 : (10 ^ 6 = 1000000)%R. Proof. cbn [pow]. ring. Qed.

Lemma fmt_f_closest x : is_fin x = true -> exists n,
  decimal (fmt_f x) (Bsign x) n 6 /\
  forall n', (Rabs (Rabs (f2r x) - IZR n / 10 ^ 6) <= Rabs (Rabs (f2r x) - IZR n' / 10 ^ 6))%R /\
             (n' <> n -> Rabs (Rabs (f2r x) - IZR n / 10 ^ 6) = Rabs (Rabs (f2r x) - IZR n' / 10 ^ 6) -> Z.even n = true)%R.
Proof.
  intros F. exists (micro x). rewrite fmt_f_fin by auto. split; [apply fmt_fixed6_decimal, micro_nonneg|].
  intros n'. rewrite pow10_6.
  assert (E : forall k, Rabs (Rabs (f2r x) - IZR k / 1000000) = (Rabs (Rabs (f2r x) * 1000000 - IZR k) / 1000000)%R).
  { intros k. replace (Rabs (f2r x) - IZR k / 1000000)%R with ((Rabs (f2r x) * 1000000 - IZR k) * / 1000000)%R by field.
    rewrite Rabs_mult, (Rabs_pos_eq (/ 1000000)) by lra. reflexivity. }
  rewrite !E. split.
  - pose proof (ZnearestE_best (Rabs (f2r x) * 1000000) n'). unfold micro. lra.
  - intros Hn He. apply (ZnearestE_tie (Rabs (f2r x) * 1000000) n'); [exact Hn|]. unfold micro in He. lra.
Qed.

Lemma sign_abs (x : f64) : is_fin x = true -> f2r x = (if Bsign x then - Rabs (f2r x) else Rabs (f2r x))%R.
Proof.
  destruct x as [s|s| |s m e Hb]; try discriminate; intros _; cbn [Bsign].
  - change (f2r (B754_zero s)) with 0%R. rewrite Rabs_R0. destruct s; lra.
  - change (f2r (B754_finite s m e Hb)) with (F2R (Float radix2 (cond_Zopp s (Zpos m)) e)).
    rewrite <- F2R_Zabs, abs_cond_Zopp. destruct s; cbn [cond_Zopp]; [|reflexivity]. rewrite <- F2R_Zopp. reflexivity.
Qed.

(** ** C53 *)
Lemma read_back pf x : reads_decimals pf -> is_fin x = true -> exists y,
  pf (fmt_f x) = Some y /\ is_fin y = true /\ Bsign y = Bsign x /\ Rabs (f2r y) = rnd (micro_r x) /\
  f2r y = (if Bsign x then - rnd (micro_r x) else rnd (micro_r x))%R /\ fmt_f y = fmt_f x.
Proof.
  intros (R & _) F. rewrite (fmt_f_fin x) by auto.
  assert (E : (IZR (micro x) / 10 ^ 6)%R = micro_r x) by (rewrite pow10_6; reflexivity).
  destruct (R _ _ _ _ (fmt_fixed6_decimal (Bsign x) (micro x) (micro_nonneg x))) as (y & P & Fy & S & V).
  { rewrite E. apply rnd_micro_lt; auto. }
  rewrite E in V. pose proof (rnd_micro_0 x) as H0.
  assert (A : Rabs (f2r y) = rnd (micro_r x)).
  { rewrite V. destruct (Bsign x); [rewrite Rabs_Ropp|]; apply Rabs_pos_eq; auto. }
  exists y. rewrite fmt_f_fin by auto. rewrite S, (micro_again x y) by auto. auto 10.
Qed.

Lemma round_trip pf : reads_decimals pf -> forall x, exists y,
  pf (fmt_f x) = Some y /\ fmt_f y = fmt_f x /\
  (is_fin x = true -> is_fin y = true /\ Bsign y = Bsign x /\
     (exists n, decimal (fmt_f x) (Bsign x) n 6 /\ Rabs (f2r y) = rnd (IZR n / 10 ^ 6)) /\
     (Rabs (f2r y - f2r x) < 1 / 10 ^ 6)%R /\ (2 ^ 33 <= Rabs (f2r x) -> y = x)%R) /\
  (is_fin x = false -> y = x).
Proof.
  intros R x. destruct (is_fin x) eqn:F.
  - destruct (read_back pf x R F) as (y & P & Fy & S & A & V & T). exists y. split; [auto|]. split; [auto|].
    split; [intros _|discriminate]. split; [auto|]. split; [auto|]. split; [|split].
    + exists (micro x). rewrite (fmt_f_fin x) by auto. split; [apply fmt_fixed6_decimal, micro_nonneg|]. rewrite pow10_6. exact A.
    + rewrite pow10_6. pose proof (micro_close x y F A) as C.
      rewrite (sign_abs y) by auto. rewrite (sign_abs x) by auto. rewrite S. rewrite Rabs_Rabsolu || idtac.
      destruct (Bsign x).
      * replace (- Rabs (f2r y) - - Rabs (f2r x))%R with (- (Rabs (f2r y) - Rabs (f2r x)))%R by ring. rewrite Rabs_Ropp. lra.
      * lra.
    + intros H. apply B2R_Bsign_inj; auto. rewrite V, micro_large; auto.
      * symmetry. apply sign_abs. auto.
      * change (bpow radix2 33) with 8589934592%R. lra.
  - exists x. destruct R as (_ & Ri & Rm & Rn). destruct x as [s|s| |s m e Hb]; try discriminate F; [destruct s|]; cbn [fmt_f]; repeat split; auto; discriminate.
Qed.
