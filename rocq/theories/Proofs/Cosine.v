From Coq Require Import Lia ZArith Reals Lra Psatz.
From Flocq Require Import Core BinarySingleNaN Relative Plus_error.
From Verif.Lib Require Import Go F64 F64Facts ListFacts Tac.
From Verif.Spec Require Import Cosine.
From Verif.Model Require Import Embedding Search.
From Verif.Proofs Require Import Search.
Local Open Scope R_scope.

Definition uu : R := bpow radix2 (-53).
Definition cc (k : nat) : R := (1 + uu) ^ (S k) - 1.

Lemma uu_pos : 0 < uu. Proof. apply bpow_gt_0. Qed.
Lemma uu_val : uu = / 9007199254740992. Proof. unfold uu. cbn. lra. Qed.
Lemma ro_uu : u_ro radix2 53 = uu.
Proof. unfold u_ro, uu. cbn. lra. Qed.

Lemma rnd_add_rel (x y : f64) : Rabs (rnd (f2r x + f2r y) - (f2r x + f2r y)) <= uu * Rabs (f2r x + f2r y).
Proof.
  destruct (FLT_plus_error_N_ex radix2 (SpecFloat.emin 53 1024) 53 (fun x => negb (Z.even x)) (f2r x) (f2r y)) as (eps & He & E);
    [apply (generic_format_B2R 53 1024)|apply (generic_format_B2R 53 1024)|].
  rewrite ro_uu in He. change (rnd (f2r x + f2r y) = (f2r x + f2r y) * (1 + eps)) in E. rewrite E.
  replace ((f2r x + f2r y) * (1 + eps) - (f2r x + f2r y)) with (eps * (f2r x + f2r y)) by ring.
  rewrite Rabs_mult. apply Rmult_le_compat_r; [apply Rabs_pos|]. apply (Rle_trans _ _ _ He).
  pose proof uu_pos. apply (Rmult_le_reg_r (1 + uu)); [lra|]. unfold Rdiv. rewrite Rmult_assoc, Rinv_l by lra. nra.
Qed.

Lemma rnd_rel y : bpow radix2 (-1022) <= Rabs y \/ y = 0 -> Rabs (rnd y - y) <= uu * Rabs y.
Proof.
  intros [H| ->].
  - pose proof (relative_error_N_FLT radix2 (SpecFloat.emin 53 1024) 53 ltac:(lia) (fun x => negb (Z.even x)) y H) as E.
    eapply Rle_trans; [exact E|]. apply Rmult_le_compat_r; [apply Rabs_pos|]. unfold uu. cbn. lra.
  - rewrite rnd_0, Rminus_0_r, Rabs_R0. lra.
Qed.

Lemma rnd_abs_err y : Rabs (rnd y - y) <= uu * Rabs y + bpow radix2 (-1075).
Proof.
  destruct (error_N_FLT radix2 (SpecFloat.emin 53 1024) 53 ltac:(lia) (fun x => negb (Z.even x)) y) as (eps & eta & He & Ht & _ & E).
  change (rnd y = y * (1 + eps) + eta) in E. rewrite E. replace (y * (1 + eps) + eta - y) with (eps * y + eta) by ring.
  eapply Rle_trans; [apply Rabs_triang|]. apply Rplus_le_compat.
  - rewrite Rabs_mult. apply Rmult_le_compat_r; [apply Rabs_pos|]. eapply Rle_trans; [exact He|]. unfold uu. cbn. lra.
  - eapply Rle_trans; [exact Ht|]. change (SpecFloat.emin 53 1024) with (-1074)%Z. change (-1075)%Z with (-1 + -1074)%Z. rewrite bpow_plus. cbn [bpow]. cbn. lra.
Qed.

Lemma bp400 : bpow radix2 400 * bpow radix2 400 = bpow radix2 800. Proof. rewrite <- bpow_plus. reflexivity. Qed.
Lemma bpm400 : bpow radix2 (-400) * bpow radix2 (-400) = bpow radix2 (-800). Proof. rewrite <- bpow_plus. reflexivity. Qed.

Lemma ord_prod x y : ordinary x -> ordinary y ->
  (f2r x * f2r y = 0 \/ bpow radix2 (-800) <= Rabs (f2r x * f2r y)) /\ Rabs (f2r x * f2r y) <= bpow radix2 800.
Proof.
  pose proof (bpow_gt_0 radix2 400) as P1. pose proof (bpow_gt_0 radix2 (-400)) as P2. pose proof (bpow_gt_0 radix2 800) as P3.
  rewrite <- bp400, <- bpm400. rewrite Rabs_mult. intros [_ [Hx|[Hx1 Hx2]]] [_ [Hy|[Hy1 Hy2]]];
    try rewrite Hx; try rewrite Hy; rewrite ?Rabs_R0, ?Rmult_0_l, ?Rmult_0_r; (split; [auto|nra]).
  right. apply Rmult_le_compat; lra.
Qed.

Lemma fmul_ord x y : ordinary x -> ordinary y ->
  is_fin (fmul x y) = true /\ Rabs (f2r (fmul x y) - f2r x * f2r y) <= uu * Rabs (f2r x * f2r y).
Proof.
  intros Hx Hy. destruct (ord_prod x y Hx Hy) as [A B].
  assert (E : Rabs (rnd (f2r x * f2r y) - f2r x * f2r y) <= uu * Rabs (f2r x * f2r y)).
  { apply rnd_rel. destruct A as [A|A]; [auto|]. left. eapply Rle_trans; [|exact A]. apply bpow_le. lia. }
  assert (M : Rabs (rnd (f2r x * f2r y)) < F64MAX).
  { rewrite <- rnd_abs. apply Rle_lt_trans with (rnd (bpow radix2 800)); [apply rnd_le; auto|].
    unfold rnd. rewrite round_generic; [unfold F64MAX; apply bpow_lt; lia|auto with typeclass_instances|]. apply generic_format_bpow. cbn. lia. }
  destruct (fmul_fin x y (proj1 Hx) (proj1 Hy) M) as [-> F]. auto.
Qed.

Lemma cc_pos k : 0 <= cc k.
Proof. unfold cc. pose proof uu_pos. assert (1 <= (1 + uu) ^ S k) by (apply pow_R1_Rle; lra). lra. Qed.
Lemma cc_S k : cc (S k) = (1 + uu) * cc k + uu.
Proof. unfold cc. rewrite (tech_pow_Rmult (1 + uu) (S k)) || cbn [pow]; ring. Qed.
Lemma cc_mono k : cc 1 <= cc (S k).
Proof. unfold cc. pose proof uu_pos. assert (1 <= (1 + uu) ^ k) by (apply pow_R1_Rle; lra). replace (S (S k)) with (2 + k)%nat by lia. rewrite pow_add.
  assert (0 <= (1 + uu) ^ 2) by (apply pow_le; lra). cbn [pow] in *. nra. Qed.
(** (1+u)^m <= 1/(1-m u) *)
Lemma pow_bound m : INR m * uu < 1 -> (1 + uu) ^ m * (1 - INR m * uu) <= 1.
Proof.
  pose proof uu_pos. induction m as [|m IH]; intros Hm; [cbn; lra|]. rewrite S_INR in *. cbn [pow].
  assert (INR m * uu < 1) by nra. specialize (IH H0). assert (0 < (1 + uu) ^ m) by (apply pow_lt; lra).
  pose proof (pos_INR m). assert ((1 + uu) * (1 - (INR m + 1) * uu) <= 1 - INR m * uu) by nra. nra.
Qed.
Lemma cc_bound k : (Z.of_nat k <= 2 ^ 21)%Z -> cc k <= (INR k + 1) * uu * (1 + / 1000000).
Proof.
  intros Hk. pose proof uu_pos. unfold cc. assert (Hi : INR (S k) * uu <= / 4000000000).
  { rewrite S_INR, uu_val. assert (INR k <= 2097152) by (rewrite INR_IZR_INZ; apply IZR_le; exact Hk). lra. }
  pose proof (pow_bound (S k) ltac:(lra)) as B. rewrite S_INR in *. set (x := (INR k + 1) * uu) in *.
  assert (0 <= x) by (unfold x; pose proof (pos_INR k); nra). set (P := (1 + uu) ^ S k) in *.
  assert (P <= 1 + x * (1 + / 1000000)); [|lra].
  apply (Rmult_le_reg_r (1 - x)); [lra|]. eapply Rle_trans; [exact B|]. nra.
Qed.

Definition sum_r (l : list R) : R := fold_right Rplus 0 l.
Definition prods (ps : list (f64 * f64)) : list R := map (fun p => f2r (fst p) * f2r (snd p)) ps.

Lemma dot_loop : forall ps d D A k, is_fin d = true ->
  Forall (fun p => ordinary (fst p) /\ ordinary (snd p)) ps ->
  Rabs (f2r d - D) <= cc k * A -> Rabs D <= A -> A <= INR k * bpow radix2 800 -> (Z.of_nat (k + length ps) <= 2 ^ 20)%Z ->
  let r := fold_left (fun d p => fadd d (fmul (fst p) (snd p))) ps d in
  is_fin r = true /\
  Rabs (f2r r - (D + sum_r (prods ps))) <= cc (k + length ps) * (A + sum_r (map Rabs (prods ps))) /\
  Rabs (D + sum_r (prods ps)) <= A + sum_r (map Rabs (prods ps)) /\
  A + sum_r (map Rabs (prods ps)) <= INR (k + length ps) * bpow radix2 800.
Proof.
  induction ps as [|[x y] ps IH]; intros d D A k Hd F E HD HA Hk.
  - cbn [fold_left prods map sum_r fold_right length]. rewrite !Rplus_0_r, Nat.add_0_r. auto.
  - inversion F as [|? ? [Hx Hy] F2]; subst. cbn [fst snd] in Hx, Hy. cbn [fold_left fst snd length] in *.
    destruct (fmul_ord x y Hx Hy) as [Fp Ep]. destruct (ord_prod x y Hx Hy) as [_ Bp].
    set (p := f2r x * f2r y) in *. set (q := fmul x y) in *.
    pose proof uu_pos as U. pose proof (cc_pos k) as C0. pose proof (bpow_gt_0 radix2 800) as P8.
    assert (C1 : cc k <= 1 /\ INR k <= 1048576).
    { assert (I : INR k <= 1048576) by (rewrite INR_IZR_INZ; apply IZR_le; change 1048576%Z with (2 ^ 20)%Z; lia). split; auto.
      eapply Rle_trans; [apply cc_bound; lia|]. rewrite uu_val. lra. }
    destruct C1 as [C1 I1].
    assert (U1 : uu <= / 4) by (rewrite uu_val; lra).
    assert (Aq : Rabs (f2r q) <= (1 + uu) * Rabs p).
    { replace (f2r q) with ((f2r q - p) + p) by ring. eapply Rle_trans; [apply Rabs_triang|]. lra. }
    assert (Ad : Rabs (f2r d) <= (1 + cc k) * A).
    { replace (f2r d) with ((f2r d - D) + D) by ring. eapply Rle_trans; [apply Rabs_triang|]. lra. }
    assert (M : Rabs (rnd (f2r d + f2r q)) < F64MAX).
    { rewrite <- rnd_abs. apply Rle_lt_trans with (rnd (bpow radix2 823)).
      - apply rnd_le. eapply Rle_trans; [apply Rabs_triang|]. change 823%Z with (23 + 800)%Z. rewrite bpow_plus.
        change (bpow radix2 23) with 8388608. pose proof (Rabs_pos p) as Pp. pose proof (Rabs_pos D) as PD.
        set (P := bpow radix2 800) in *. clearbody P.
        assert (A <= 1048576 * P) by (eapply Rle_trans; [exact HA|]; apply Rmult_le_compat_r; lra).
        assert ((1 + cc k) * A <= 2 * A) by (apply Rmult_le_compat_r; lra).
        assert ((1 + uu) * Rabs p <= 2 * Rabs p) by (apply Rmult_le_compat_r; lra). lra.
      - unfold rnd. rewrite round_generic; [unfold F64MAX; apply bpow_lt; lia|auto with typeclass_instances|]. apply generic_format_bpow. cbn. lia. }
    destruct (fadd_fin d q Hd Fp M) as [Er Fr]. pose proof (rnd_add_rel d q) as Ea. rewrite <- Er in Ea.
    set (d' := fadd d q) in *.
    assert (E' : Rabs (f2r d' - (D + p)) <= cc (S k) * (A + Rabs p)).
    { replace (f2r d' - (D + p)) with ((f2r d' - (f2r d + f2r q)) + (f2r d - D) + (f2r q - p)) by ring.
      assert (T : Rabs (f2r d + f2r q) <= (A + Rabs p) + cc k * A + uu * Rabs p).
      { replace (f2r d + f2r q) with (D + p + (f2r d - D) + (f2r q - p)) by ring.
        eapply Rle_trans; [apply Rabs_triang|]. eapply Rle_trans; [apply Rplus_le_compat_r, Rabs_triang|].
        eapply Rle_trans; [apply Rplus_le_compat_r, Rplus_le_compat_r, Rabs_triang|]. lra. }
      eapply Rle_trans; [apply Rabs_triang|]. eapply Rle_trans; [apply Rplus_le_compat_r, Rabs_triang|].
      apply Rle_trans with (uu * (A + Rabs p + cc k * A + uu * Rabs p) + cc k * A + uu * Rabs p); [nra|].
      pose proof (cc_mono k) as CM. pose proof (Rabs_pos p) as Pp. assert (cc 1 = 2 * uu + uu * uu) as C1v by (unfold cc; cbn [pow]; ring).
      rewrite (cc_S k) in CM |- *. assert (0 <= Rabs p * ((1 + uu) * cc k + uu - cc 1)) as Q by (apply Rmult_le_pos; lra). rewrite C1v in Q. lra. }
    assert (HD' : Rabs (D + p) <= A + Rabs p) by (eapply Rle_trans; [apply Rabs_triang|]; lra).
    assert (HA' : A + Rabs p <= INR (S k) * bpow radix2 800) by (rewrite S_INR; lra).
    destruct (IH d' (D + p) (A + Rabs p) (S k) Fr F2 E' HD' HA' ltac:(lia)) as (R1 & R2 & R3 & R4).
    cbn [prods map sum_r fold_right fst snd]. fold (prods ps). fold (sum_r (prods ps)). fold (sum_r (map Rabs (prods ps))).
    fold p. rewrite <- !Rplus_assoc. replace (k + S (length ps))%nat with (S k + length ps)%nat by lia. auto.
Qed.

(** ** Cauchy-Schwarz *)
Lemma two_le a b : 0 <= a -> 0 <= b -> 2 * (sqrt a * sqrt b) <= a + b.
Proof. intros Ha Hb. pose proof (Rle_0_sqr (sqrt a - sqrt b)) as H. unfold Rsqr in H. pose proof (sqrt_sqrt a Ha). pose proof (sqrt_sqrt b Hb). nra. Qed.

Lemma sp_cons x u y v : sum_r (prods (combine (x :: u) (y :: v))) = f2r x * f2r y + sum_r (prods (combine u v)).
Proof. reflexivity. Qed.
Lemma sa_cons x u y v : sum_r (map Rabs (prods (combine (x :: u) (y :: v)))) = Rabs (f2r x * f2r y) + sum_r (map Rabs (prods (combine u v))).
Proof. reflexivity. Qed.
Lemma sum_abs_nonneg l : 0 <= sum_r (map Rabs l).
Proof. induction l as [|x l IH]; [apply Rle_refl|]. apply Rplus_le_le_0_compat; [apply Rabs_pos|exact IH]. Qed.
Lemma sum_sq_nonneg v : 0 <= sum_r (prods (combine v v)).
Proof. induction v as [|x v IH]; [apply Rle_refl|]. apply Rplus_le_le_0_compat; [apply Rle_0_sqr|exact IH]. Qed.

Lemma cauchy : forall u v, (sum_r (map Rabs (prods (combine u v)))) * (sum_r (map Rabs (prods (combine u v)))) <=
  sum_r (prods (combine u u)) * sum_r (prods (combine v v)).
Proof.
  induction u as [|x u IH]; intros v.
  - change (0 * 0 <= 0 * sum_r (prods (combine v v))). rewrite !Rmult_0_l. apply Rle_refl.
  - destruct v as [|y v]; [change (0 * 0 <= sum_r (prods (combine (x :: u) (x :: u))) * 0); rewrite !Rmult_0_r; apply Rle_refl|].
    rewrite !sp_cons, sa_cons. specialize (IH v). pose proof (sum_sq_nonneg u) as PU. pose proof (sum_sq_nonneg v) as PV. pose proof (sum_abs_nonneg (prods (combine u v))) as PT.
    set (U := sum_r (prods (combine u u))) in *. set (V := sum_r (prods (combine v v))) in *. set (T := sum_r (map Rabs (prods (combine u v)))) in *.
    set (a := f2r x) in *. set (b := f2r y) in *. clearbody U V T a b.
    assert (Eab : Rabs (a * b) * Rabs (a * b) = (a * a) * (b * b)). { rewrite <- Rabs_mult, Rabs_pos_eq; [ring|]. apply Rle_0_sqr. }
    set (m := Rabs (a * b)) in *. assert (Pm : 0 <= m) by apply Rabs_pos. clearbody m.
    assert (K : 2 * T * m <= U * (b * b) + V * (a * a)).
    { assert (PA : 0 <= a * a) by apply Rle_0_sqr. assert (PB : 0 <= b * b) by apply Rle_0_sqr.
      assert (W1 : 0 <= U * (b * b)) by (apply Rmult_le_pos; lra). assert (W2 : 0 <= V * (a * a)) by (apply Rmult_le_pos; lra).
      apply Rsqr_incr_0_var; [|lra]. unfold Rsqr.
      assert (T * T * (m * m) <= U * V * (m * m)) by (apply Rmult_le_compat_r; [apply Rle_0_sqr|lra]). rewrite Eab in H at 2.
      pose proof (Rle_0_sqr (U * (b * b) - V * (a * a))) as Z. unfold Rsqr in Z. nra. }
    nra.
Qed.

Lemma cauchy_len u v : sum_r (map Rabs (prods (combine u v))) <= len_r u * len_r v.
Proof.
  unfold len_r, dot_r. fold (prods (combine u u)). fold (prods (combine v v)).
  change (fold_right Rplus 0 (prods (combine u u))) with (sum_r (prods (combine u u))).
  change (fold_right Rplus 0 (prods (combine v v))) with (sum_r (prods (combine v v))).
  rewrite <- sqrt_mult by apply sum_sq_nonneg. apply Rsqr_incr_0_var; [|apply sqrt_pos]. rewrite Rsqr_sqrt by (apply Rmult_le_pos; apply sum_sq_nonneg).
  apply cauchy.
Qed.
Lemma sum_abs_le l : Rabs (sum_r l) <= sum_r (map Rabs l).
Proof. induction l as [|x l IH]; cbn [sum_r map fold_right]; [rewrite Rabs_R0; lra|]. eapply Rle_trans; [apply Rabs_triang|]. unfold sum_r in IH. lra. Qed.
Lemma dot_le u v : Rabs (dot_r u v) <= len_r u * len_r v.
Proof. eapply Rle_trans; [|apply cauchy_len]. apply sum_abs_le. Qed.

(** ** Norm *)
Lemma norm_fold v : forall d, fold_left (fun n x => fadd n (fmul x x)) v d = fold_left (fun d p => fadd d (fmul (fst p) (snd p))) (combine v v) d.
Proof. induction v as [|x v IH]; intros d; [reflexivity|]. cbn [fold_left combine fst snd]. apply IH. Qed.
Lemma ord_pairs u v : Forall ordinary u -> Forall ordinary v -> Forall (fun p => ordinary (fst p) /\ ordinary (snd p)) (combine u v).
Proof.
  intros Hu Hv. apply Forall_forall. intros [x y] H. rewrite Forall_forall in Hu, Hv. cbn. split; [apply Hu; eapply in_combine_l; eauto|apply Hv; eapply in_combine_r; eauto].
Qed.

Lemma dot_float u v : Forall ordinary u -> Forall ordinary v -> (Z.of_nat (length u) <= 2 ^ 20)%Z -> length u = length v ->
  let d := fold_left (fun d p => fadd d (fmul (fst p) (snd p))) (combine u v) fzero in
  is_fin d = true /\ Rabs (f2r d - dot_r u v) <= cc (length u) * sum_r (map Rabs (prods (combine u v))) /\
  sum_r (map Rabs (prods (combine u v))) <= INR (length u) * bpow radix2 800.
Proof.
  intros Hu Hv Hn Hl d.
  assert (E : length (combine u v) = length u) by (rewrite combine_length; lia).
  destruct (dot_loop (combine u v) fzero 0 0 0) as (A & B & _ & D).
  - reflexivity. - apply ord_pairs; auto. - rewrite fzero_r, Rminus_0_r, Rabs_R0, Rmult_0_r. lra. - rewrite Rabs_R0. lra.
  - cbn. lra. - rewrite E. lia.
  - rewrite E in *. cbn [Nat.add] in *. rewrite !Rplus_0_l in *. auto.
Qed.

Lemma sum_sq_pos v : Forall ordinary v -> nonzero v -> bpow radix2 (-800) <= dot_r v v.
Proof.
  intros F (x & Hx & Nx). change (bpow radix2 (-800) <= sum_r (prods (combine v v))). induction v as [|y v IH]; [destruct Hx|]. inversion F as [|? ? F1 F2]; subst.
  rewrite sp_cons. pose proof (sum_sq_nonneg v) as Pv.
  destruct Hx as [->|Hx].
  - destruct (ord_prod x x F1 F1) as [[Z|Z] _]; [apply Rmult_integral in Z; tauto|]. rewrite Rabs_pos_eq in Z by apply Rle_0_sqr. lra.
  - specialize (IH F2 Hx). pose proof (Rle_0_sqr (f2r y)) as Y. unfold Rsqr in Y. lra.
Qed.

Lemma map_abs_sq v : map Rabs (prods (combine v v)) = prods (combine v v).
Proof. unfold prods. rewrite map_map. induction v as [|x v IH]; [reflexivity|]. cbn [combine map fst snd]. rewrite IH, Rabs_pos_eq by apply Rle_0_sqr. reflexivity. Qed.

Lemma len_bounds v : Forall ordinary v -> nonzero v -> (Z.of_nat (length v) <= 2 ^ 20)%Z ->
  bpow radix2 (-400) <= len_r v <= bpow radix2 410.
Proof.
  intros F N Hn. pose proof (sum_sq_pos v F N) as L. destruct (dot_float v v F F Hn eq_refl) as (_ & _ & U). rewrite map_abs_sq in U.
  unfold len_r. split.
  - rewrite <- (sqrt_square (bpow radix2 (-400))) by apply bpow_ge_0. rewrite bpm400. apply sqrt_le_1_alt. auto.
  - rewrite <- (sqrt_square (bpow radix2 410)) by apply bpow_ge_0. apply sqrt_le_1_alt. rewrite <- bpow_plus. change (410 + 410)%Z with (20 + 800)%Z. rewrite bpow_plus.
    change (bpow radix2 20) with 1048576. eapply Rle_trans; [exact U|]. apply Rmult_le_compat_r; [apply bpow_ge_0|]. rewrite INR_IZR_INZ. apply IZR_le. exact Hn.
Qed.

Lemma cc_small n : (Z.of_nat n <= 2 ^ 20 + 1)%Z -> cc n <= / 1000000.
Proof.
  intros H. eapply Rle_trans; [apply cc_bound; lia|]. assert (INR n <= 1048577) by (rewrite INR_IZR_INZ; apply IZR_le; exact H). rewrite uu_val. lra.
Qed.

Lemma norm_float v : Forall ordinary v -> nonzero v -> (Z.of_nat (length v) <= 2 ^ 20)%Z ->
  is_fin (norm v) = true /\ Rabs (f2r (norm v) - len_r v) <= cc (S (length v)) * len_r v.
Proof.
  intros F N Hn. unfold norm. rewrite norm_fold. destruct (dot_float v v F F Hn eq_refl) as (Fd & E & _). rewrite map_abs_sq in E.
  set (q := fold_left _ (combine v v) fzero) in *. pose proof (sum_sq_pos v F N) as L. pose proof (len_bounds v F N Hn) as [B1 B2].
  change (sum_r (prods (combine v v))) with (dot_r v v) in E. pose proof (cc_small (length v) ltac:(lia)) as C. pose proof (cc_pos (length v)) as C0.
  rewrite cc_S. set (c := cc (length v)) in *. pose proof (bpow_gt_0 radix2 (-800)) as P8. pose proof (bpow_gt_0 radix2 (-400)) as P4.
  assert (Qp : 0 <= dot_r v v) by lra. assert (NN : len_r v * len_r v = dot_r v v) by (apply sqrt_sqrt; auto).
  apply Rabs_le_inv in E. rewrite <- NN in E, L. set (N1 := len_r v) in *. clearbody N1 c. set (Q := f2r q) in *.
  assert (H1 : (1 - c) * N1 <= sqrt Q <= (1 + c) * N1).
  { split.
    - rewrite <- (sqrt_square ((1 - c) * N1)) by (apply Rmult_le_pos; lra). apply sqrt_le_1_alt. assert (0 <= N1 * N1 * (c * (1 - c))) by (repeat apply Rmult_le_pos; lra). nra.
    - rewrite <- (sqrt_square ((1 + c) * N1)) by (apply Rmult_le_pos; lra). apply sqrt_le_1_alt. assert (0 <= N1 * N1 * (c * (1 + c))) by (repeat apply Rmult_le_pos; lra). nra. }
  assert (Qpos : 0 < Q). { assert (0 < N1 * N1 * (1 - c)) by (repeat apply Rmult_lt_0_compat; lra). nra. }
  split; [apply fsqrt_fin; auto|]. rewrite fsqrt_real. fold Q.
  assert (Sn : bpow radix2 (-1022) <= Rabs (sqrt Q)).
  { rewrite Rabs_pos_eq by apply sqrt_pos. apply Rle_trans with (bpow radix2 (-401)); [apply bpow_le; lia|].
    change (-401)%Z with (-1 + -400)%Z. rewrite bpow_plus. change (bpow radix2 (-1)) with (/ 2). nra. }
  pose proof (rnd_rel (sqrt Q) (or_introl Sn)) as Er. rewrite (Rabs_pos_eq (sqrt Q)) in Er by apply sqrt_pos. apply Rabs_le_inv in Er.
  pose proof uu_pos as U. set (s := sqrt Q) in *. clearbody s. assert (U1 : uu <= / 1000) by (rewrite uu_val; lra).
  apply Rabs_le. assert (uu * s <= uu * ((1 + c) * N1)) by (apply Rmult_le_compat_l; lra). lra.
Qed.

(** ** The quotient *)
Lemma Rabs_div_pos x y : 0 < y -> Rabs (x / y) = Rabs x / y.
Proof. intros H. unfold Rdiv. rewrite Rabs_mult, Rabs_inv, (Rabs_pos_eq y); lra. Qed.

Lemma quotient_close D d a1 a2 N1 N2 c c1 : 0 < N1 -> 0 < N2 -> 0 <= c <= c1 -> c1 <= / 1000000 ->
  Rabs D <= N1 * N2 -> Rabs (d - D) <= c * (N1 * N2) ->
  Rabs (a1 - N1) <= c1 * N1 -> Rabs (a2 - N2) <= c1 * N2 ->
  Rabs (d / (a1 * a2) - D / (N1 * N2)) <= 3 * c1 * (1 + / 100000).
Proof.
  intros P1 P2 Hc Hc1 HD Hd H1 H2. apply Rabs_le_inv in H1, H2.
  set (x := a1 / N1). set (y := a2 / N2).
  assert (Ex : a1 = x * N1) by (unfold x; field; lra). assert (Ey : a2 = y * N2) by (unfold y; field; lra).
  assert (Bx : 1 - c1 <= x <= 1 + c1) by (rewrite Ex in H1; split; apply (Rmult_le_reg_r N1); lra).
  assert (By : 1 - c1 <= y <= 1 + c1) by (rewrite Ey in H2; split; apply (Rmult_le_reg_r N2); lra).
  rewrite Ex, Ey. clearbody x y. clear H1 H2 Ex Ey a1 a2.
  set (N := N1 * N2) in *. assert (PN : 0 < N) by (apply Rmult_lt_0_compat; auto).
  set (R := D / N). set (e := (d - D) / N). assert (BR : Rabs R <= 1).
  { unfold R. rewrite Rabs_div_pos by auto. apply (Rmult_le_reg_r N); auto. unfold Rdiv. rewrite Rmult_assoc, Rinv_l by lra. lra. }
  assert (Be : Rabs e <= c). { unfold e. rewrite Rabs_div_pos by auto. apply (Rmult_le_reg_r N); auto. unfold Rdiv. rewrite Rmult_assoc, Rinv_l by lra. lra. }
  assert (Pxy : (1 - c1) * (1 - c1) <= x * y <= (1 + c1) * (1 + c1)) by (split; apply Rmult_le_compat; lra).
  assert (P0 : 0 < x * y) by nra.
  assert (Nx : x <> 0) by lra. assert (Ny : y <> 0) by lra.
  replace (d / (x * N1 * (y * N2))) with ((R + e) / (x * y)) by (unfold R, e, N; field; repeat split; auto; lra).
  replace ((R + e) / (x * y) - R) with ((e + R * (1 - x * y)) / (x * y)) by (field; auto).
  rewrite Rabs_div_pos by auto. apply (Rmult_le_reg_r (x * y)); auto. unfold Rdiv. rewrite Rmult_assoc, Rinv_l, Rmult_1_r by lra.
  eapply Rle_trans; [apply Rabs_triang|]. rewrite Rabs_mult.
  assert (Bp : Rabs (1 - x * y) <= 2 * c1 + c1 * c1) by (apply Rabs_le; nra).
  assert (Rabs R * Rabs (1 - x * y) <= 1 * (2 * c1 + c1 * c1)) by (apply Rmult_le_compat; auto; apply Rabs_pos).
  apply Rle_trans with (3 * c1 * (1 + / 100000) * ((1 - c1) * (1 - c1))); [|apply Rmult_le_compat_l; nra]. nra.
Qed.

Lemma cosine_close u v : length u = length v -> (Z.of_nat (length u) <= 2 ^ 20)%Z -> Forall ordinary u -> Forall ordinary v ->
  nonzero u -> nonzero v ->
  exists r, cosine u v (norm u) (norm v) = Ret r /\ is_fin r = true /\
    Rabs (f2r r - cos_r u v) <= (4 * INR (length u) + 12) * bpow radix2 (-53).
Proof.
  intros Hl Hn Fu Fv Nu Nv. fold uu.
  destruct (norm_float u Fu Nu Hn) as [F1 E1]. destruct (norm_float v Fv Nv ltac:(rewrite <- Hl; auto)) as [F2 E2]. rewrite <- Hl in E2.
  destruct (len_bounds u Fu Nu Hn) as [L1 U1]. destruct (len_bounds v Fv Nv ltac:(rewrite <- Hl; auto)) as [L2 U2].
  destruct (dot_float u v Fu Fv Hn Hl) as (Fd & Ed & _). pose proof (cauchy_len u v) as CS. pose proof (dot_le u v) as DL.
  pose proof (cc_small (S (length u)) ltac:(lia)) as C1s. pose proof (cc_pos (length u)) as C0. pose proof uu_pos as Up.
  assert (Cle : cc (length u) <= cc (S (length u))) by (rewrite cc_S; nra).
  set (n1 := norm u) in *. set (n2 := norm v) in *. set (N1 := len_r u) in *. set (N2 := len_r v) in *.
  set (c1 := cc (S (length u))) in *.
  pose proof (bpow_gt_0 radix2 (-400)) as P4. assert (PN1 : 0 < N1) by lra. assert (PN2 : 0 < N2) by lra.
  assert (B1 : N1 / 2 <= f2r n1 <= 2 * N1) by (apply Rabs_le_inv in E1; nra).
  assert (B2 : N2 / 2 <= f2r n2 <= 2 * N2) by (apply Rabs_le_inv in E2; nra).
  unfold cosine.
  assert (Z1 : feq n1 fzero = false).
  { destruct (feq n1 fzero) eqn:Z; auto. apply feq_spec in Z. destruct Z as (_ & _ & Z). rewrite fkey_fin in Z by auto. cbn in Z. lra. }
  assert (Z2 : feq n2 fzero = false).
  { destruct (feq n2 fzero) eqn:Z; auto. apply feq_spec in Z. destruct Z as (_ & _ & Z). rewrite fkey_fin in Z by auto. cbn in Z. lra. }
  rewrite Z1, Z2. cbn [orb]. rewrite cos_dot_spec by lia. cbn [obind]. set (d := fold_left _ (combine u v) fzero) in *.
  assert (Ed' : Rabs (f2r d - dot_r u v) <= cc (length u) * (N1 * N2)) by (eapply Rle_trans; [exact Ed|]; apply Rmult_le_compat_l; auto).
  pose proof (quotient_close (dot_r u v) (f2r d) (f2r n1) (f2r n2) N1 N2 (cc (length u)) c1 PN1 PN2 (conj C0 Cle) C1s DL Ed' E1 E2) as QC.
  fold (cos_r u v) in QC. set (D := dot_r u v) in *. set (a1 := f2r n1) in *. set (a2 := f2r n2) in *.
  assert (Pa1 : 0 < a1) by lra. assert (Pa2 : 0 < a2) by lra.
  assert (Ad : Rabs (f2r d) <= 2 * (N1 * N2)).
  { replace (f2r d) with ((f2r d - D) + D) by ring. eapply Rle_trans; [apply Rabs_triang|].
    assert (cc (length u) * (N1 * N2) <= 1 * (N1 * N2)) by (apply Rmult_le_compat_r; [apply Rmult_le_pos; lra|lra]). lra. }
  assert (Ad1 : Rabs (f2r d / a1) <= bpow radix2 412).
  { rewrite Rabs_div_pos by auto. apply (Rmult_le_reg_r a1); auto. unfold Rdiv. rewrite Rmult_assoc, Rinv_l, Rmult_1_r by lra.
    change 412%Z with (2 + 410)%Z. rewrite bpow_plus. change (bpow radix2 2) with 4. eapply Rle_trans; [exact Ad|].
    apply Rle_trans with (2 * ((2 * a1) * bpow radix2 410)); [|right; ring]. apply Rmult_le_compat_l; [lra|]. apply Rmult_le_compat; lra. }
  assert (fmt : forall e, (-1000 <= e <= 1000)%Z -> rnd (bpow radix2 e) = bpow radix2 e).
  { intros e He. unfold rnd. apply round_generic; [auto with typeclass_instances|]. apply generic_format_bpow. unfold SpecFloat.fexp, SpecFloat.emin. lia. }
  assert (M1 : Rabs (rnd (f2r d / a1)) < F64MAX).
  { rewrite <- rnd_abs. apply Rle_lt_trans with (rnd (bpow radix2 412)); [apply rnd_le; auto|]. rewrite fmt by lia. apply bpow_lt. lia. }
  destruct (fdiv_fin d n1 Fd ltac:(fold a1; lra) M1) as [Er1 Fr1]. fold a1 in Er1.
  set (r1 := fdiv d n1) in *. pose proof (rnd_abs_err (f2r d / a1)) as G1. rewrite <- Er1 in G1.
  set (t := f2r d / (a1 * a2)) in *. assert (Et : f2r d / a1 = t * a2) by (unfold t; field; lra). rewrite Et in G1.
  assert (QC' : Rabs (t - cos_r u v) <= 3 * c1 * (1 + / 100000)) by exact QC.
  assert (H1t : Rabs t <= 2).
  { assert (Rabs (cos_r u v) <= 1). { unfold cos_r. fold D N1 N2. rewrite Rabs_div_pos by (apply Rmult_lt_0_compat; auto). apply (Rmult_le_reg_r (N1 * N2)); [apply Rmult_lt_0_compat; auto|]. unfold Rdiv. rewrite Rmult_assoc, Rinv_l, Rmult_1_r by (apply Rgt_not_eq, Rmult_lt_0_compat; auto). lra. }
    replace t with ((t - cos_r u v) + cos_r u v) by ring. eapply Rle_trans; [apply Rabs_triang|]. lra. }
  set (eta := bpow radix2 (-1075)) in *. set (eta2 := bpow radix2 (-600)).
  assert (He : 0 < eta) by apply bpow_gt_0.
  assert (Heta : eta / a2 <= eta2).
  { apply (Rmult_le_reg_r a2); auto. unfold Rdiv. rewrite Rmult_assoc, Rinv_l, Rmult_1_r by lra. apply Rle_trans with (eta2 * bpow radix2 (-401)).
    - unfold eta, eta2. rewrite <- bpow_plus. apply bpow_le. lia.
    - apply Rmult_le_compat_l; [apply bpow_ge_0|]. change (-401)%Z with (-1 + -400)%Z. rewrite bpow_plus. change (bpow radix2 (-1)) with (/ 2). lra. }
  assert (G1' : Rabs (f2r r1 / a2 - t) <= uu * Rabs t + eta2).
  { replace (f2r r1 / a2 - t) with ((f2r r1 - t * a2) / a2) by (field; lra). rewrite Rabs_div_pos by auto.
    eapply Rle_trans; [|apply Rplus_le_compat_l; exact Heta]. rewrite Rabs_mult, (Rabs_pos_eq a2) in G1 by lra.
    apply (Rmult_le_reg_r a2); auto. unfold Rdiv. rewrite Rmult_assoc, Rinv_l, Rmult_1_r by lra. rewrite Rmult_plus_distr_r, Rmult_assoc, Rmult_assoc, Rinv_l by lra. lra. }
  assert (S2 : eta2 <= uu / 1000000).
  { unfold eta2, uu. apply Rle_trans with (bpow radix2 (-73)); [apply bpow_le; lia|]. change (-73)%Z with (-20 + -53)%Z. rewrite bpow_plus. change (bpow radix2 (-20)) with (/ 1048576). pose proof (bpow_gt_0 radix2 (-53)). lra. }
  assert (S1 : eta <= uu / 1000000).
  { eapply Rle_trans; [|exact S2]. unfold eta, eta2. apply bpow_le. lia. }
  assert (Uv : uu <= / 1000000) by (rewrite uu_val; lra).
  set (w := f2r r1 / a2) in *.
  assert (Aw : Rabs w <= 3).
  { replace w with ((w - t) + t) by ring. eapply Rle_trans; [apply Rabs_triang|]. assert (uu * Rabs t <= uu * 2) by (apply Rmult_le_compat_l; lra). lra. }
  assert (M2 : Rabs (rnd w) < F64MAX).
  { rewrite <- rnd_abs. apply Rle_lt_trans with (rnd (bpow radix2 2)); [apply rnd_le; cbn [bpow]; cbn; lra|]. rewrite fmt by lia. apply bpow_lt. lia. }
  destruct (fdiv_fin r1 n2 Fr1 ltac:(fold a2; lra) M2) as [Er2 Fr2].
  exists (fdiv r1 n2). split; [reflexivity|]. split; [exact Fr2|]. change (f2r (fdiv r1 n2) = rnd w) in Er2. rewrite Er2.
  pose proof (rnd_abs_err w) as G2. fold eta in G2.
  assert (Cb : c1 <= (INR (length u) + 2) * uu * (1 + / 1000000)).
  { unfold c1. eapply Rle_trans; [apply cc_bound; lia|]. rewrite S_INR. lra. }
  assert (At : Rabs t <= 1 + 4 * c1).
  { assert (Rabs (cos_r u v) <= 1). { unfold cos_r. fold D N1 N2. rewrite Rabs_div_pos by (apply Rmult_lt_0_compat; auto). apply (Rmult_le_reg_r (N1 * N2)); [apply Rmult_lt_0_compat; auto|]. unfold Rdiv. rewrite Rmult_assoc, Rinv_l, Rmult_1_r by (apply Rgt_not_eq, Rmult_lt_0_compat; auto). lra. }
    replace t with ((t - cos_r u v) + cos_r u v) by ring. eapply Rle_trans; [apply Rabs_triang|]. lra. }
  assert (At2 : Rabs t <= 1 + / 100000) by lra.
  assert (Aw2 : Rabs w <= 1 + / 10000).
  { replace w with ((w - t) + t) by ring. eapply Rle_trans; [apply Rabs_triang|]. assert (uu * Rabs t <= uu * 2) by (apply Rmult_le_compat_l; lra). lra. }
  assert (T1 : uu * Rabs t <= uu * (1 + / 100000)) by (apply Rmult_le_compat_l; lra).
  assert (T2 : uu * Rabs w <= uu * (1 + / 10000)) by (apply Rmult_le_compat_l; lra).
  replace (rnd w - cos_r u v) with ((rnd w - w) + (w - t) + (t - cos_r u v)) by ring.
  eapply Rle_trans; [apply Rabs_triang|]. eapply Rle_trans; [apply Rplus_le_compat_r, Rabs_triang|].
  pose proof (pos_INR (length u)) as Pn.
  assert (0 <= INR (length u) * uu) by (apply Rmult_le_pos; lra). lra.
Qed.
