From Coq Require Import Reals Lra Lia.
From Flocq Require Import Core BinarySingleNaN.
From Verif.Lib Require Import Go F64 F64Facts ListFacts.
From Verif.Model Require Import Sigmoid.
Local Open Scope R_scope.

Definition just_below_6 (x : f64) : Prop := is_fin x = true /\ f2r x = 6 - bpow radix2 (-50).

Lemma six : f2r (f_of_Z 6) = 6 /\ is_fin (f_of_Z 6) = true.
Proof. apply f_of_Z_exact. lia. Qed.
Lemma msix : f2r (f_of_Z (-6)) = -6 /\ is_fin (f_of_Z (-6)) = true.
Proof. apply f_of_Z_exact. lia. Qed.

Lemma range6 x : fgt x (f_of_Z (-6)) = true -> flt x (f_of_Z 6) = true ->
  is_fin x = true /\ -6 < f2r x < 6.
Proof.
  intros H1 H2. apply fgt_spec in H1. apply flt_spec in H2.
  destruct H1 as (N & _ & H1). destruct H2 as (_ & _ & H2).
  rewrite (fkey_fin (f_of_Z (-6))) in H1 by apply msix. rewrite (fkey_fin (f_of_Z 6)) in H2 by apply six.
  rewrite (proj1 msix) in H1. rewrite (proj1 six) in H2.
  assert (F : is_fin x = true).
  { destruct x as [s|s| |s m e H]; try reflexivity; try discriminate.
    exfalso. unfold fkey in H1, H2. assert (6 < F64MAX). { apply (Rle_lt_trans _ (Rabs (IZR 6))); [rewrite Rabs_pos_eq; lra|]. apply IZR_lt_MAX. lia. }
    destruct s; lra. }
  rewrite fkey_fin in H1, H2 by auto. split; auto.
Qed.

(** The constant cache, and its product with concrete numbers. *)
Lemma cache_show : fshow sig_cache = Some (5864062014805333, -46)%Z.
Proof. vm_compute. reflexivity. Qed.
Definition C : R := f2r sig_cache.
Lemma cache_fin : is_fin sig_cache = true.
Proof. apply (fshow_spec _ _ _ cache_show). Qed.
Lemma C_val : C = 5864062014805333 / 70368744177664.
Proof. unfold C. rewrite (proj2 (fshow_spec _ _ _ cache_show)). simpl. lra. Qed.

(** 12 - 2^-49 and 12 - 2^-50 *)
Definition c12 : f64 := f_of_Z 12.
Definition c12m : f64 := f_of_ratio false (12 * 2 ^ 49 - 1) (2 ^ 49).
Lemma c12m_show : fshow c12m = Some (6755399441055743, -49)%Z.
Proof. vm_compute. reflexivity. Qed.
Lemma c12_val : f2r c12 = 12 /\ is_fin c12 = true.
Proof. apply f_of_Z_exact. lia. Qed.
Lemma c12m_val : f2r c12m = 12 - bpow radix2 (-49) /\ is_fin c12m = true.
Proof. destruct (fshow_spec _ _ _ c12m_show) as [A B]. split; auto. rewrite B. simpl. lra. Qed.
Lemma p12_show : fshow (fmul c12 sig_cache) = Some (8796093022208000, -43)%Z.
Proof. vm_compute. reflexivity. Qed.
Lemma p12m_show : fshow (fmul c12m sig_cache) = Some (8796093022207998, -43)%Z.
Proof. vm_compute. reflexivity. Qed.

Lemma fmul_rnd a : is_fin a = true -> 0 <= f2r a <= 12 ->
  f2r (fmul a sig_cache) = rnd (f2r a * C) /\ is_fin (fmul a sig_cache) = true.
Proof.
  intros F H. apply fmul_fin; [exact F|apply cache_fin|].
  apply (rnd_small _ (f_of_Z 2000)). rewrite (proj1 (f_of_Z_exact 2000 ltac:(lia))).
  fold C. rewrite Rabs_pos_eq; rewrite C_val; nra.
Qed.

Lemma idx_real x : is_fin x = true -> -6 < f2r x < 6 ->
  let y := rnd (f2r x + 6) in let p := rnd (y * C) in
  0 <= y <= 12 /\ 0 <= p <= 1000 /\ sig_index x = Ztrunc p.
Proof.
  intros F H y p. destruct six as (E6 & F6).
  assert (Hy : 0 <= y <= 12).
  { unfold y. split.
    - rewrite <- rnd_0. apply rnd_le. lra.
    - rewrite <- (proj1 c12_val). apply rnd_le_f. rewrite (proj1 c12_val). lra. }
  destruct (fadd_fin x max_exp F F6) as (Ea & Fa).
  { unfold max_exp. rewrite E6. apply Rle_lt_trans with 12; [rewrite Rabs_pos_eq; unfold y in Hy; lra|].
    apply (Rle_lt_trans _ (Rabs (IZR 12))); [rewrite Rabs_pos_eq; lra|]. apply IZR_lt_MAX. lia. }
  unfold max_exp in Ea, Fa. rewrite E6 in Ea. fold y in Ea.
  destruct (fmul_rnd (fadd x (f_of_Z 6)) Fa) as (Ep & Fp); [rewrite Ea; auto|].
  rewrite Ea in Ep. fold p in Ep.
  assert (Hp : 0 <= p <= 1000).
  { unfold p. split.
    - rewrite <- rnd_0. apply rnd_le. rewrite C_val. nra.
    - destruct (fmul_rnd c12) as (E12 & _); [apply c12_val|rewrite (proj1 c12_val); lra|].
      apply Rle_trans with (rnd (12 * C)). { apply rnd_le. rewrite C_val. nra. }
      rewrite (proj1 c12_val) in E12. rewrite <- E12.
      rewrite (proj2 (fshow_spec _ _ _ p12_show)). simpl. lra. }
  split; auto. split; auto.
  unfold sig_index, int_of_f64, max_exp. rewrite f_to_Z_fin; auto; rewrite Ep; auto.
  assert (Ht : (0 <= Ztrunc p <= 1000)%Z).
  { split; [rewrite <- (Ztrunc_IZR 0)|rewrite <- (Ztrunc_IZR 1000)]; apply Ztrunc_le; lra. }
  lia.
Qed.

Lemma just_below_6_largest x : is_fin x = true -> f2r x < 6 -> f2r x <= 6 - bpow radix2 (-50).
Proof.
  intros F H. destruct (Rlt_le_dec (f2r x) 4) as [H4|H4].
  { simpl. lra. }
  destruct (f_multiple x 3) as (k & Ek); [lia| |].
  { rewrite Rabs_pos_eq by lra. simpl. lra. }
  rewrite Ek in *. simpl (3 - 53)%Z in *.
  assert (Hk : (k < 6 * 2 ^ 50)%Z). { apply lt_IZR. rewrite mult_IZR. simpl in *. lra. }
  assert (Hk' : (k <= 6 * 2 ^ 50 - 1)%Z) by lia. apply IZR_le in Hk'. simpl in *. lra.
Qed.

Lemma second_largest x : is_fin x = true -> f2r x < 6 - bpow radix2 (-50) -> f2r x <= 6 - bpow radix2 (-49).
Proof.
  intros F H. destruct (Rlt_le_dec (f2r x) 4) as [H4|H4].
  { simpl. lra. }
  destruct (f_multiple x 3) as (k & Ek); [lia| |].
  { rewrite Rabs_pos_eq by lra. simpl in *. lra. }
  rewrite Ek in *. simpl (3 - 53)%Z in *.
  assert (Hk : (k < 6 * 2 ^ 50 - 1)%Z). { apply lt_IZR. rewrite minus_IZR, mult_IZR. simpl in *. lra. }
  assert (Hk' : (k <= 6 * 2 ^ 50 - 2)%Z) by lia. apply IZR_le in Hk'. simpl in *. lra.
Qed.

Lemma below6_show : fshow (fadd (f_of_ratio false (6 * 2 ^ 50 - 1) (2 ^ 50)) (f_of_Z 6)) = fshow c12.
Proof. vm_compute. reflexivity. Qed.
Definition b6 : f64 := f_of_ratio false (6 * 2 ^ 50 - 1) (2 ^ 50).
Lemma b6_show : fshow b6 = Some (6755399441055743, -50)%Z.
Proof. vm_compute. reflexivity. Qed.
Lemma c12_show : fshow c12 = Some (6755399441055744, -49)%Z.
Proof. vm_compute. reflexivity. Qed.

Lemma idx_last x : just_below_6 x -> sig_index x = 1000%Z.
Proof.
  intros (F & E). destruct (idx_real x F) as (_ & _ & ->). { rewrite E. simpl. lra. }
  destruct (fshow_spec _ _ _ b6_show) as (Fb & Eb).
  assert (Ey : rnd (f2r x + 6) = 12).
  { replace (f2r x + 6) with (f2r b6 + f2r (f_of_Z 6)).
    2:{ rewrite Eb, E, (proj1 six). simpl. lra. }
    assert (Rabs (rnd (f2r b6 + f2r (f_of_Z 6))) < F64MAX).
    { apply (rnd_small _ c12). rewrite Eb, (proj1 six), (proj1 c12_val). simpl. rewrite Rabs_pos_eq; lra. }
    destruct (fadd_fin b6 (f_of_Z 6) Fb (proj2 six) H) as (<- & _).
    pose proof below6_show as S. rewrite c12_show in S. destruct (fshow_spec _ _ _ S) as (_ & S').
    unfold b6. rewrite S'. simpl. lra. }
  rewrite Ey. destruct (fmul_rnd c12) as (E12 & _); [apply c12_val|rewrite (proj1 c12_val); lra|].
  rewrite (proj1 c12_val) in E12. rewrite <- E12. rewrite (proj2 (fshow_spec _ _ _ p12_show)).
  replace (8796093022208000 * bpow radix2 (-43)) with 1000 by (simpl; lra). apply Ztrunc_IZR.
Qed.

Lemma idx_rest x : is_fin x = true -> -6 < f2r x < 6 -> ~ just_below_6 x -> (0 <= sig_index x < 1000)%Z.
Proof.
  intros F H N. destruct (idx_real x F H) as (Hy & Hp & ->).
  assert (Hx : f2r x <= 6 - bpow radix2 (-49)).
  { apply second_largest; auto. destruct (just_below_6_largest x F ltac:(lra)) as [L|L]; auto.
    exfalso. apply N. split; auto. }
  assert (Hy' : rnd (f2r x + 6) <= f2r c12m).
  { apply rnd_le_f. rewrite (proj1 c12m_val). lra. }
  destruct (fmul_rnd c12m) as (E12 & _); [apply c12m_val|rewrite (proj1 c12m_val); simpl; lra|].
  assert (Hq : rnd (rnd (f2r x + 6) * C) <= 1000 - bpow radix2 (-42)).
  { apply Rle_trans with (rnd (f2r c12m * C)). { apply rnd_le. rewrite C_val. nra. }
    rewrite <- E12, (proj2 (fshow_spec _ _ _ p12m_show)). simpl. lra. }
  set (p := rnd (rnd (f2r x + 6) * C)) in *.
  rewrite Ztrunc_floor by lra. split.
  - rewrite <- (Zfloor_IZR 0). apply Zfloor_le. lra.
  - apply lt_IZR. apply Rle_lt_trans with p; [apply Zfloor_lb|]. simpl in Hq. lra.
Qed.

Lemma sig_table_length exp : length (sig_table exp) = 1000%nat.
Proof. unfold sig_table. rewrite map_length, seq_length. reflexivity. Qed.

Lemma sig_table_nth exp i : (0 <= i < 1000)%Z ->
  nth_error (sig_table exp) (Z.to_nat i) = Some (sig_entry (exp (sig_grid i))).
Proof.
  intros Hi. unfold sig_table.
  assert (E : nth_error (seq 0 (Z.to_nat exp_table_size)) (Z.to_nat i) = Some (Z.to_nat i)).
  { rewrite (nth_error_nth' _ 0%nat); [rewrite seq_nth; auto|rewrite seq_length]; unfold exp_table_size; lia. }
  rewrite (map_nth_error _ _ _ E). rewrite Z2Nat.id by lia. reflexivity.
Qed.

Lemma sigmoid_ret exp x : (0 <= sig_index x < 1000)%Z ->
  sigmoid (sig_table exp) x = Ret (sig_entry (exp (sig_grid (sig_index x)))).
Proof.
  intros H. unfold sigmoid, zindex. destruct (Z.ltb_spec (sig_index x) 0); [lia|].
  rewrite sig_table_nth by auto. reflexivity.
Qed.

Lemma sigmoid_index_lemma (exp : f64 -> f64) x :
  fgt x (f_of_Z (-6)) = true -> flt x (f_of_Z 6) = true ->
  (just_below_6 x -> sigmoid (sig_table exp) x = Panic) /\
  (~ just_below_6 x -> exists v, sigmoid (sig_table exp) x = Ret v /\ In v (sig_table exp)).
Proof.
  intros H1 H2. destruct (range6 x H1 H2) as (F & H). split; intros J.
  - unfold sigmoid, zindex. rewrite (idx_last x J). destruct (Z.ltb_spec 1000 0); [lia|].
    replace (nth_error (sig_table exp) (Z.to_nat 1000)) with (@None f64); [reflexivity|].
    symmetry. apply nth_error_None. rewrite sig_table_length. lia.
  - pose proof (idx_rest x F H J) as Hi. rewrite sigmoid_ret by auto. eexists; split; [reflexivity|].
    eapply nth_error_In, sig_table_nth. exact Hi.
Qed.

Lemma sigmoid_nan_lemma (exp : f64 -> f64) :
  fle fnan (f_of_Z (-6)) = false /\ fge fnan (f_of_Z 6) = false /\ sigmoid (sig_table exp) fnan = Panic.
Proof. split; [reflexivity|]. split; [reflexivity|]. reflexivity. Qed.

Lemma sig_entry_range v : is_fin v = true -> 0 < f2r v ->
  fle fzero (sig_entry v) = true /\ fle (sig_entry v) (f_of_Z 1) = true.
Proof.
  intros F H. destruct (f_of_Z_exact 1) as (E1 & F1); [lia|].
  assert (Hlt : Rabs (rnd (f2r v + 1)) < F64MAX).
  { destruct (Rle_lt_dec (f2r v) (bpow radix2 1000)) as [L|L].
    - rewrite <- rnd_abs, Rabs_pos_eq by lra.
      apply Rle_lt_trans with (bpow radix2 1001).
      + apply Rle_trans with (rnd (bpow radix2 1001)).
        * apply rnd_le. apply Rle_trans with (bpow radix2 1000 + bpow radix2 1000).
          -- apply Rplus_le_compat; auto. apply (bpow_le radix2 0 1000). lia.
          -- replace (bpow radix2 1001) with (2 * bpow radix2 1000) by (change 1001%Z with (1 + 1000)%Z; rewrite bpow_plus; reflexivity). lra.
        * right. apply round_generic; [apply valid_rnd_N|]. apply generic_format_bpow. unfold SpecFloat.fexp, SpecFloat.emin; lia.
      + apply bpow_lt. lia.
    - assert (Es : rnd (f2r v + 1) = f2r v).
      { assert (G : Rabs (rnd (f2r v + 1) - (f2r v + 1)) <= bpow radix2 0 + 0 -> True) by auto.
        unfold rnd. apply Rle_antisym.
        - apply round_N_le_midp; try apply fexp53_valid.
          + apply generic_format_B2R.
          + pose proof (succ_gt_id radix2 (SpecFloat.fexp 53 1024) (f2r v) ltac:(lra)) as S.
            rewrite succ_eq_pos by lra.
            assert (bpow radix2 2 <= ulp radix2 (SpecFloat.fexp 53 1024) (f2r v)).
            { rewrite ulp_neq_0 by lra. apply bpow_le. unfold cexp.
              assert (1000 < mag radix2 (f2r v))%Z.
              { apply mag_gt_bpow. rewrite Rabs_pos_eq; lra. }
              unfold SpecFloat.fexp, SpecFloat.emin. lia. }
            simpl in H0. lra.
        - fold (rnd (f2r v + 1)). rewrite <- (rnd_generic v) at 1. apply rnd_le. lra. }
      rewrite Es. apply f2r_bound. }
  destruct (fadd_fin v (f_of_Z 1) F F1) as (Es & Fs); [rewrite E1; exact Hlt|].
  rewrite E1 in Es. set (s := fadd v (f_of_Z 1)) in *.
  assert (Hs : f2r v <= f2r s).
  { rewrite Es. rewrite <- (rnd_generic v) at 1. apply rnd_le. lra. }
  assert (Hq : 0 <= f2r v / f2r s <= 1).
  { split.
    - apply Rmult_le_pos; [lra|]. apply Rlt_le, Rinv_0_lt_compat. lra.
    - apply Rmult_le_reg_r with (f2r s); [lra|]. unfold Rdiv. rewrite Rmult_assoc, Rinv_l by lra. lra. }
  destruct (fdiv_fin v s F) as (Ed & Fd); [lra| |].
  { apply (rnd_small _ (f_of_Z 1)). rewrite E1, Rabs_pos_eq; lra. }
  unfold sig_entry. fold s.
  split; apply fle_spec; (split; [try reflexivity; apply fin_not_nan; auto|]); (split; [try reflexivity; apply fin_not_nan; auto|]).
  - rewrite !fkey_fin by auto. rewrite Ed. simpl. rewrite <- rnd_0. apply rnd_le. lra.
  - rewrite !fkey_fin by auto. rewrite Ed. apply rnd_le_f. rewrite E1. lra.
Qed.

Lemma rnd_err_lra y e : (-1000 <= e)%Z -> Rabs y < bpow radix2 e ->
  y - bpow radix2 (e - 54) <= rnd y <= y + bpow radix2 (e - 54).
Proof.
  intros He Hy. pose proof (rnd_err y e He Hy) as H. apply Rabs_le_inv in H. lra.
Qed.

Lemma ten12 : / 10 ^ 12 = / 1000000000000.
Proof. f_equal. lra. Qed.

Lemma sig_grid_real i : (0 <= i < 1000)%Z ->
  is_fin (sig_grid i) = true /\ Rabs (f2r (sig_grid i) - (12 * IZR i / 1000 - 6)) <= / 10 ^ 12.
Proof.
  intros Hi. destruct (f_of_Z_exact i) as (Ei & Fi); [lia|].
  destruct (f_of_Z_exact 1000) as (Et & Ft); [lia|]. destruct (f_of_Z_exact 2) as (E2 & F2); [lia|].
  destruct (f_of_Z_exact 1) as (E1 & F1); [lia|]. destruct six as (E6 & F6).
  assert (Hr : 0 <= IZR i <= 999). { split; [apply (IZR_le 0)|apply (IZR_le _ 999)]; lia. }
  assert (SM : forall y, Rabs y <= 12 -> Rabs (rnd y) < F64MAX).
  { intros y Hy. apply (rnd_small _ c12). rewrite (proj1 c12_val). auto. }
  unfold sig_grid, exp_table_size, max_exp.
  assert (Ha : 0 <= IZR i / 1000 <= 999 / 1000) by lra.
  destruct (fdiv_fin (f_of_Z i) (f_of_Z 1000) Fi) as (Ea & Fa).
  { rewrite Et. lra. } { rewrite Ei, Et. apply SM. rewrite Rabs_pos_eq; lra. }
  rewrite Ei, Et in Ea.
  pose proof (rnd_err_lra (IZR i / 1000) 0 ltac:(lia) ltac:(simpl; rewrite Rabs_pos_eq; lra)) as Ra.
  rewrite <- Ea in Ra. set (a := fdiv (f_of_Z i) (f_of_Z 1000)) in *. simpl in Ra.
  assert (Ha' : -1 <= f2r a <= 2) by lra.
  destruct (fmul_fin a (f_of_Z 2) Fa F2) as (Eb & Fb).
  { rewrite E2. apply SM. apply Rabs_le. lra. }
  rewrite E2 in Eb.
  pose proof (rnd_err_lra (f2r a * 2) 3 ltac:(lia) ltac:(simpl; apply Rabs_lt; lra)) as Rb.
  rewrite <- Eb in Rb. set (b := fmul a (f_of_Z 2)) in *. simpl in Rb.
  destruct (fsub_fin b (f_of_Z 1) Fb F1) as (Ec & Fc).
  { rewrite E1. apply SM. apply Rabs_le. lra. }
  rewrite E1 in Ec.
  pose proof (rnd_err_lra (f2r b - 1) 3 ltac:(lia) ltac:(simpl; apply Rabs_lt; lra)) as Rc.
  rewrite <- Ec in Rc. set (c := fsub b (f_of_Z 1)) in *. simpl in Rc.
  destruct (fmul_fin c (f_of_Z 6) Fc F6) as (Ed & Fd).
  { rewrite E6. apply SM. apply Rabs_le. lra. }
  rewrite E6 in Ed.
  pose proof (rnd_err_lra (f2r c * 6) 4 ltac:(lia) ltac:(simpl; apply Rabs_lt; lra)) as Rd.
  rewrite <- Ed in Rd. set (d := fmul c (f_of_Z 6)) in *. simpl in Rd. split; auto. rewrite ten12. apply Rabs_le. lra.
Qed.

Lemma sigmoid_range_lemma (exp : f64 -> f64) :
  (forall x, is_fin x = true -> Rabs (f2r x) <= 7 -> is_fin (exp x) = true /\ (0 < f2r (exp x))%R) ->
  length (sig_table exp) = 1000%nat /\
  (forall v, In v (sig_table exp) -> fle fzero v = true /\ fle v (f_of_Z 1) = true) /\
  (forall x v, sigmoid (sig_table exp) x = Ret v -> fle fzero v = true /\ fle v (f_of_Z 1) = true).
Proof.
  intros He. split; [apply sig_table_length|].
  assert (Hin : forall v, In v (sig_table exp) -> fle fzero v = true /\ fle v (f_of_Z 1) = true).
  { intros v Hv. apply in_map_iff in Hv. destruct Hv as (i & <- & Hi). apply in_seq in Hi. unfold exp_table_size in Hi.
    destruct (sig_grid_real (Z.of_nat i)) as (Fg & Bg); [lia|]. rewrite ten12 in Bg. apply Rabs_le_inv in Bg.
    assert (Ii : 0 <= IZR (Z.of_nat i) <= 1000) by (split; [apply (IZR_le 0)|apply (IZR_le _ 1000)]; lia).
    destruct (He _ Fg ltac:(apply Rabs_le; lra)) as (E1 & E2). apply sig_entry_range; assumption. }
  split; auto. intros x v. unfold sigmoid, zindex. destruct (Z.ltb _ _); [discriminate|].
  destruct (nth_error _ _) eqn:E; [|discriminate]. intros H. injection H as <-.
  apply Hin. eapply nth_error_In; eauto.
Qed.


Lemma sigmoid_grid_lemma exp x :
  fgt x (f_of_Z (-6)) = true -> flt x (f_of_Z 6) = true -> ~ just_below_6 x ->
  exists i e, (0 <= i < 1000)%Z /\
    sigmoid (sig_table exp) x = Ret (fdiv (exp e) (fadd (exp e) (f_of_Z 1))) /\
    is_fin e = true /\ Rabs (f2r e - (12 * IZR i / 1000 - 6)) <= / 10 ^ 12 /\
    - / 10 ^ 12 <= f2r x - (12 * IZR i / 1000 - 6) <= 12 / 1000 + / 10 ^ 12.
Proof.
  intros H1 H2 N. destruct (range6 x H1 H2) as (F & H).
  pose proof (idx_rest x F H N) as Hi. exists (sig_index x), (sig_grid (sig_index x)).
  split; auto. split; [apply sigmoid_ret; auto|].
  destruct (sig_grid_real _ Hi) as (Fg & Eg). split; auto. split; auto.
  destruct (idx_real x F H) as (Hy & Hp & Ei).
  pose proof (rnd_err_lra (f2r x + 6) 4 ltac:(lia) ltac:(simpl; rewrite Rabs_pos_eq; lra)) as Ry.
  set (y := rnd (f2r x + 6)) in *.
  assert (HyC : 0 <= y * C <= 1001) by (rewrite C_val; nra).
  pose proof (rnd_err_lra (y * C) 10 ltac:(lia) ltac:(simpl; rewrite Rabs_pos_eq; lra)) as Rp.
  set (p := rnd (y * C)) in *. rewrite Ztrunc_floor in Ei by lra.
  pose proof (Zfloor_lb p) as L. pose proof (Zfloor_ub p) as U. rewrite <- Ei in L, U.
  rewrite C_val in Rp. simpl in Ry, Rp. set (i := IZR (sig_index x)) in *.
  rewrite ten12. split; lra.
Qed.

Lemma sigmoid_mono_lemma (table : list f64) x y a b :
  (forall i j u v, (i <= j)%nat -> nth_error table i = Some u -> nth_error table j = Some v -> fle u v = true) ->
  fgt x (f_of_Z (-6)) = true -> flt y (f_of_Z 6) = true -> fle x y = true ->
  sigmoid table x = Ret a -> sigmoid table y = Ret b -> fle a b = true.
Proof.
  intros Ht Hx Hy Hxy Ha Hb.
  assert (Hx' : flt x (f_of_Z 6) = true /\ fgt y (f_of_Z (-6)) = true).
  { apply fgt_spec in Hx. apply flt_spec in Hy. apply fle_spec in Hxy.
    split; [apply flt_spec|apply fgt_spec]; intuition lra. }
  destruct (range6 x Hx (proj1 Hx')) as (Fx & Rx). destruct (range6 y (proj2 Hx') Hy) as (Fy & Ry).
  apply fle_spec in Hxy. destruct Hxy as (_ & _ & Hxy). rewrite !fkey_fin in Hxy by auto.
  destruct (idx_real x Fx Rx) as (Yx & Px & Ix). destruct (idx_real y Fy Ry) as (Yy & Py & Iy).
  assert (Hi : (0 <= sig_index x <= sig_index y)%Z).
  { rewrite Ix, Iy. split.
    - rewrite <- (Ztrunc_IZR 0). apply Ztrunc_le. lra.
    - apply Ztrunc_le. apply rnd_le. apply Rmult_le_compat_r; [rewrite C_val; lra|]. apply rnd_le. lra. }
  unfold sigmoid, zindex in Ha, Hb.
  destruct (Z.ltb_spec (sig_index x) 0); [lia|]. destruct (Z.ltb_spec (sig_index y) 0); [lia|].
  destruct (nth_error table (Z.to_nat (sig_index x))) eqn:E1; [|discriminate].
  destruct (nth_error table (Z.to_nat (sig_index y))) eqn:E2; [|discriminate].
  injection Ha as <-. injection Hb as <-. eapply Ht; [|exact E1|exact E2]. lia.
Qed.
