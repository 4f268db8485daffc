(** * Proofs for C111: similarity is symmetric up to rounding *)
From Coq Require Import Reals List ZArith Lra Lia.
From Flocq Require Import Core BinarySingleNaN.
From Verif.Lib Require Import Go F64 F64Facts.
From Verif.Spec Require Import Cosine Symmetry.
From Verif.Model Require Import Embedding Search.
From Verif.Proofs Require Import Search Cosine.
Import ListNotations.
Local Open Scope R_scope.

Lemma fmul_comm (x y : f64) : fmul x y = fmul y x.
Proof.
  unfold fmul. destruct x as [s|s| |s m e H], y as [s'|s'| |s' m' e' H']; cbn [Bmult]; rewrite 1?(xorb_comm s s'); try reflexivity.
  assert (E : Bmult mode_NE (B754_finite s m e H) (B754_finite s' m' e' H') = Bmult mode_NE (B754_finite s' m' e' H') (B754_finite s m e H)).
  { apply B2SF_inj. rewrite !B2SF_SF2B || idtac. cbn [Bmult]. rewrite ?B2SF_SF2B. rewrite (xorb_comm s s'), (Z.add_comm e e'), (Pos.mul_comm m m'). reflexivity. }
  exact E.
Qed.

Lemma dot_comm (u v : list f64) : forall d, fold_left (fun d p => fadd d (fmul (fst p) (snd p))) (combine u v) d =
  fold_left (fun d p => fadd d (fmul (fst p) (snd p))) (combine v u) d.
Proof. revert v. induction u as [|x u IH]; intros [|y v] d; try reflexivity. cbn [combine fold_left fst snd]. rewrite (fmul_comm x y). apply IH. Qed.

Lemma rnd_bpow e : (-1000 <= e <= 1000)%Z -> rnd (bpow radix2 e) = bpow radix2 e.
Proof. intros He. unfold rnd. apply round_generic; [auto with typeclass_instances|]. apply generic_format_bpow. unfold SpecFloat.fexp, SpecFloat.emin. lia. Qed.
Lemma rnd_small y e : (-1000 <= e <= 1000)%Z -> Rabs y <= bpow radix2 e -> Rabs (rnd y) < F64MAX.
Proof. intros He Hy. rewrite <- rnd_abs. apply Rle_lt_trans with (rnd (bpow radix2 e)); [apply rnd_le; auto|]. rewrite rnd_bpow by auto. apply bpow_lt. lia. Qed.

Lemma div_rel (d n : f64) e : is_fin d = true -> bpow radix2 (-120) <= f2r n <= bpow radix2 120 -> (-700 <= e <= 700)%Z ->
  f2r d = 0 \/ bpow radix2 (-700) <= Rabs (f2r d) <= bpow radix2 e ->
  is_fin (fdiv d n) = true /\ Rabs (f2r (fdiv d n) - f2r d / f2r n) <= uu * Rabs (f2r d / f2r n).
Proof.
  intros Fd [N1 N2] He Hd. pose proof (bpow_gt_0 radix2 (-120)) as P. assert (Pn : 0 < f2r n) by lra.
  assert (M : Rabs (f2r d / f2r n) <= bpow radix2 (e + 120)).
  { rewrite Rabs_div_pos by auto. apply (Rmult_le_reg_r (f2r n)); auto. unfold Rdiv. rewrite Rmult_assoc, Rinv_l, Rmult_1_r by lra.
    apply Rle_trans with (bpow radix2 (e + 120) * bpow radix2 (-120)); [|apply Rmult_le_compat_l; [apply bpow_ge_0|auto]].
    rewrite <- bpow_plus. replace (e + 120 + -120)%Z with e by lia. destruct Hd as [->|[_ H]]; [rewrite Rabs_R0; apply bpow_ge_0|exact H]. }
  destruct (fdiv_fin d n Fd ltac:(lra) (rnd_small _ (e + 120) ltac:(lia) M)) as [E F]. split; [exact F|]. rewrite E. apply rnd_rel.
  destruct Hd as [->|[H _]]; [right; unfold Rdiv; ring|left]. rewrite Rabs_div_pos by auto. apply (Rmult_le_reg_r (f2r n)); auto. unfold Rdiv.
  rewrite Rmult_assoc, Rinv_l, Rmult_1_r by lra. apply Rle_trans with (bpow radix2 (-1022) * bpow radix2 120); [apply Rmult_le_compat_l; [apply bpow_ge_0|auto]|].
  rewrite <- bpow_plus. eapply Rle_trans; [|exact H]. apply bpow_le. lia.
Qed.

Lemma two_div (d n1 n2 : f64) : is_fin d = true -> bpow radix2 (-120) <= f2r n1 <= bpow radix2 120 -> bpow radix2 (-120) <= f2r n2 <= bpow radix2 120 ->
  f2r d = 0 \/ bpow radix2 (-500) <= Rabs (f2r d) <= bpow radix2 500 ->
  let q := f2r d / (f2r n1 * f2r n2) in
  is_fin (fdiv (fdiv d n1) n2) = true /\ Rabs (f2r (fdiv (fdiv d n1) n2) - q) <= (2 * uu + uu * uu) * Rabs q.
Proof.
  intros Fd H1 H2 Hd q. pose proof (bpow_gt_0 radix2 (-120)) as P. pose proof uu_pos as U. assert (Uv : uu <= / 1000000) by (rewrite uu_val; lra).
  assert (Hd' : f2r d = 0 \/ bpow radix2 (-700) <= Rabs (f2r d) <= bpow radix2 500).
  { destruct Hd as [?|[A B]]; [auto|right]. split; [|exact B]. eapply Rle_trans; [|exact A]. apply bpow_le. lia. }
  destruct (div_rel d n1 500 Fd H1 ltac:(lia) Hd') as [F1 E1]. set (r1 := fdiv d n1) in *.
  assert (R1 : f2r r1 = 0 \/ bpow radix2 (-700) <= Rabs (f2r r1) <= bpow radix2 700).
  { destruct Hd as [Z|[A B]].
    - left. rewrite Z in E1. replace (0 / f2r n1) with 0 in E1 by (unfold Rdiv; ring). rewrite Rabs_R0, Rmult_0_r, Rminus_0_r in E1. pose proof (Rabs_pos (f2r r1)).
      destruct (Req_dec (f2r r1) 0) as [Q|Q]; [exact Q|]. apply Rabs_pos_lt in Q. lra.
    - right. set (x := f2r d / f2r n1) in *. assert (X : bpow radix2 (-620) <= Rabs x <= bpow radix2 620).
      { unfold x. rewrite Rabs_div_pos by lra. split; apply (Rmult_le_reg_r (f2r n1)); try lra; unfold Rdiv; rewrite Rmult_assoc, Rinv_l, Rmult_1_r by lra.
        - apply Rle_trans with (bpow radix2 (-620) * bpow radix2 120); [apply Rmult_le_compat_l; [apply bpow_ge_0|lra]|]. rewrite <- bpow_plus. exact A.
        - apply Rle_trans with (bpow radix2 620 * bpow radix2 (-120)); [|apply Rmult_le_compat_l; [apply bpow_ge_0|lra]]. rewrite <- bpow_plus. exact B. }
      assert (T1 : Rabs (f2r r1) <= Rabs (f2r r1 - x) + Rabs x) by (replace (f2r r1) with ((f2r r1 - x) + x) at 1 by ring; apply Rabs_triang).
      assert (T2 : Rabs x <= Rabs (f2r r1 - x) + Rabs (f2r r1)).
      { rewrite (Rabs_minus_sym (f2r r1) x). replace x with ((x - f2r r1) + f2r r1) at 1 by ring. apply Rabs_triang. }
      assert (uu * Rabs x <= / 1000000 * Rabs x) by (apply Rmult_le_compat_r; [apply Rabs_pos|lra]).
      split.
      + apply Rle_trans with (bpow radix2 (-1 + -620)); [apply bpow_le; lia|]. rewrite bpow_plus. change (bpow radix2 (-1)) with (/ 2). lra.
      + apply Rle_trans with (bpow radix2 (1 + 620)); [|apply bpow_le; lia]. rewrite bpow_plus. change (bpow radix2 1) with 2. pose proof (Rabs_pos x). lra. }
  destruct (div_rel r1 n2 700 F1 H2 ltac:(lia) R1) as [F2 E2]. split; [exact F2|].
  set (a1 := f2r n1) in *. set (a2 := f2r n2) in *. assert (P1 : 0 < a1) by lra. assert (P2 : 0 < a2) by lra.
  assert (G : Rabs (f2r r1 / a2 - q) <= uu * Rabs q).
  { replace (f2r r1 / a2 - q) with ((f2r r1 - f2r d / a1) / a2) by (unfold q; field; lra). replace q with ((f2r d / a1) / a2) by (unfold q; field; lra).
    rewrite !(Rabs_div_pos _ a2) by auto. unfold Rdiv at 1 3. rewrite <- Rmult_assoc. apply Rmult_le_compat_r; [left; apply Rinv_0_lt_compat; auto|exact E1]. }
  set (w := f2r r1 / a2) in *. replace (f2r (fdiv r1 n2) - q) with ((f2r (fdiv r1 n2) - w) + (w - q)) by ring.
  eapply Rle_trans; [apply Rabs_triang|]. assert (T : Rabs w <= Rabs (w - q) + Rabs q) by (replace w with ((w - q) + q) at 1 by ring; apply Rabs_triang).
  assert (uu * Rabs w <= uu * (uu * Rabs q + Rabs q)) by (apply Rmult_le_compat_l; lra). nra.
Qed.

(** ** The dot product is 0 or not tiny *)
Lemma moderate_ordinary x : moderate x -> ordinary x.
Proof.
  intros [F H]. split; [exact F|]. destruct H as [H|[A B]]; [auto|right]. split.
  - eapply Rle_trans; [|exact A]. apply bpow_le. lia.
  - eapply Rle_trans; [exact B|]. apply bpow_le. lia.
Qed.

Definition fix304 (y : R) : Prop := generic_format radix2 (FIX_exp (-304)) y.
Lemma fix_mult y : (exists m, y = IZR m * bpow radix2 (-304)) -> fix304 y.
Proof. intros [m ->]. apply generic_format_FIX. exists (Float radix2 m (-304)); reflexivity. Qed.
Lemma fix_inv y : fix304 y -> exists m, y = IZR m * bpow radix2 (-304).
Proof. intros H. apply FIX_format_generic in H. destruct H as [[m e] -> E]. cbn in E. subst e. exists m. reflexivity. Qed.
Lemma fix_rnd y : fix304 y -> fix304 (rnd y).
Proof. intros H. unfold rnd, fix304 in *. apply generic_round_generic; auto with typeclass_instances. Qed.
Lemma fix_add x y : fix304 x -> fix304 y -> fix304 (x + y).
Proof. intros Hx Hy. destruct (fix_inv _ Hx) as [m ->]. destruct (fix_inv _ Hy) as [k ->]. apply fix_mult. exists (m + k)%Z. rewrite plus_IZR. ring. Qed.

Lemma moderate_fix x : moderate x -> exists m, f2r x = IZR m * bpow radix2 (-152).
Proof.
  intros [F [H|[A B]]]; [exists 0%Z; rewrite H; ring|].
  pose proof (generic_format_B2R 53 1024 x) as G. fold (f2r x) in G. unfold generic_format in G. rewrite G. unfold F2R. cbn [Fnum Fexp].
  set (z := Ztrunc (scaled_mantissa radix2 (SpecFloat.fexp 53 1024) (f2r x))) in *. set (e := cexp radix2 (SpecFloat.fexp 53 1024) (f2r x)) in *.
  assert (E : (-152 <= e)%Z).
  { unfold e, cexp, SpecFloat.fexp, SpecFloat.emin. assert (-99 <= mag radix2 (f2r x))%Z; [|lia]. apply mag_ge_bpow. exact A. }
  exists (z * 2 ^ (e + 152))%Z. rewrite mult_IZR. change (2 ^ (e + 152))%Z with (radix2 ^ (e + 152))%Z. rewrite IZR_Zpower by lia. rewrite Rmult_assoc, <- bpow_plus. do 2 f_equal. lia.
Qed.

Lemma fadd_inv (x y : f64) : is_fin (fadd x y) = true -> is_fin x = true -> is_fin y = true -> f2r (fadd x y) = rnd (f2r x + f2r y).
Proof.
  intros F Fx Fy. pose proof (Bplus_correct 53 1024 _ _ mode_NE x y Fx Fy) as H. rewrite round_mode_NE in H. fold (rnd (f2r x + f2r y)) in H.
  destruct (Rlt_bool _ _); [tauto|]. destruct H as [H _]. exfalso. unfold fadd in F. destruct (Bplus mode_NE x y) as [s|s| |s m e Hb]; try discriminate F; unfold binary_overflow in H; cbn in H; discriminate H.
Qed.
Lemma fadd_fin_l (x y : f64) : is_fin y = true -> is_fin (fadd x y) = true -> is_fin x = true.
Proof. destruct x as [s|s| |s m e Hb], y as [s'|s'| |s' m' e' Hb']; intros Fy F; try discriminate Fy; try reflexivity; discriminate F. Qed.

Lemma moderate_prod (x y : f64) : moderate x -> moderate y -> is_fin (fmul x y) = true /\ fix304 (f2r (fmul x y)).
Proof.
  intros Hx Hy. destruct (moderate_fix x Hx) as [m Em]. destruct (moderate_fix y Hy) as [k Ek]. destruct Hx as [Fx Bx], Hy as [Fy By].
  assert (M : Rabs (f2r x * f2r y) <= bpow radix2 (100 + 100)).
  { rewrite Rabs_mult, bpow_plus. pose proof (bpow_gt_0 radix2 100). apply Rmult_le_compat; try apply Rabs_pos;
      [destruct Bx as [->|[_ Q]]|destruct By as [->|[_ Q]]]; rewrite ?Rabs_R0; lra. }
  destruct (fmul_fin x y Fx Fy (rnd_small _ (100 + 100) ltac:(lia) M)) as [E F]. split; [exact F|]. rewrite E. apply fix_rnd, fix_mult. exists (m * k)%Z.
  rewrite Em, Ek, mult_IZR. change (-304)%Z with (-152 + -152)%Z. rewrite bpow_plus. ring.
Qed.

Lemma dot_fix : forall ps d, Forall (fun p => moderate (fst p) /\ moderate (snd p)) ps -> (is_fin d = true -> fix304 (f2r d)) ->
  let r := fold_left (fun d p => fadd d (fmul (fst p) (snd p))) ps d in is_fin r = true -> fix304 (f2r r).
Proof.
  induction ps as [|[x y] ps IH]; intros d H Gd r Fr; [exact (Gd Fr)|]. inversion H as [|? ? [Hx Hy] H']; subst. cbn [fst snd] in Hx, Hy.
  destruct (moderate_prod x y Hx Hy) as [Fp Gp]. apply (IH (fadd d (fmul x y)) H'); [|exact Fr]. intros Fa.
  pose proof (fadd_fin_l _ _ Fp Fa) as Fd. rewrite (fadd_inv _ _ Fa Fd Fp). apply fix_rnd, fix_add; auto.
Qed.

Lemma fix_big y : fix304 y -> y = 0 \/ bpow radix2 (-304) <= Rabs y.
Proof.
  intros H. destruct (fix_inv _ H) as [m ->]. destruct (Z.eq_dec m 0) as [->|N]; [left; ring|right].
  rewrite Rabs_mult, (Rabs_pos_eq (bpow _ _)) by apply bpow_ge_0. rewrite <- (Rmult_1_l (bpow radix2 (-304))) at 1.
  apply Rmult_le_compat_r; [apply bpow_ge_0|]. rewrite <- abs_IZR. apply IZR_le. lia.
Qed.

(** ** Lengths and the dot product of moderate vectors *)
Lemma all_ordinary v : Forall moderate v -> Forall ordinary v.
Proof. intros H. eapply Forall_impl; [|exact H]. exact moderate_ordinary. Qed.
Lemma mod_sq x : moderate x -> (f2r x <> 0 -> bpow radix2 (-200) <= f2r x * f2r x) /\ f2r x * f2r x <= bpow radix2 200.
Proof.
  intros [_ H]. change (-200)%Z with (-100 + -100)%Z. change 200%Z with (100 + 100)%Z. rewrite !bpow_plus. rewrite <- (Rabs_pos_eq (f2r x * f2r x)) by apply Rle_0_sqr. rewrite Rabs_mult.
  pose proof (bpow_gt_0 radix2 (-100)). pose proof (bpow_gt_0 radix2 100).
  destruct H as [E|[A B]]; [rewrite E, Rabs_R0; split; [intros N; exfalso; apply N; reflexivity|nra]|]. split; [intros _|]; apply Rmult_le_compat; try apply Rabs_pos; lra.
Qed.
Lemma sq_bounds v : Forall moderate v -> dot_r v v <= INR (length v) * bpow radix2 200 /\ (nonzero v -> bpow radix2 (-200) <= dot_r v v).
Proof.
  change (dot_r v v) with (sum_r (prods (combine v v))). pose proof (bpow_gt_0 radix2 200) as P.
  induction v as [|x v IH]; intros F; [split; [cbn; lra|intros (? & [] & _)]|]. inversion F as [|? ? F1 F2]; subst. destruct (IH F2) as [U L]. destruct (mod_sq x F1) as [A B].
  cbn [length]. rewrite sp_cons, S_INR. pose proof (sum_sq_nonneg v) as Pv. split; [lra|]. intros (y & [->|Hy] & Ny); [specialize (A Ny); lra|].
  assert (nonzero v) as NV by (exists y; auto). specialize (L NV). pose proof (Rle_0_sqr (f2r x)) as Q. unfold Rsqr in Q. lra.
Qed.
Lemma len_moderate v : Forall moderate v -> nonzero v -> (Z.of_nat (length v) <= 2 ^ 20)%Z -> bpow radix2 (-100) <= len_r v <= bpow radix2 110.
Proof.
  intros F N Hn. destruct (sq_bounds v F) as [U L]. specialize (L N). unfold len_r. split.
  - rewrite <- (sqrt_square (bpow radix2 (-100))) by apply bpow_ge_0. rewrite <- bpow_plus. apply sqrt_le_1_alt. exact L.
  - rewrite <- (sqrt_square (bpow radix2 110)) by apply bpow_ge_0. apply sqrt_le_1_alt. rewrite <- bpow_plus. change (110 + 110)%Z with (20 + 200)%Z. rewrite bpow_plus.
    change (bpow radix2 20) with 1048576. eapply Rle_trans; [exact U|]. apply Rmult_le_compat_r; [apply bpow_ge_0|]. rewrite INR_IZR_INZ. apply IZR_le. exact Hn.
Qed.
Lemma norm_moderate v : Forall moderate v -> nonzero v -> (Z.of_nat (length v) <= 2 ^ 20)%Z ->
  is_fin (norm v) = true /\ bpow radix2 (-120) <= f2r (norm v) <= bpow radix2 120.
Proof.
  intros F N Hn. destruct (norm_float v (all_ordinary v F) N Hn) as [Ff E]. destruct (len_moderate v F N Hn) as [L U]. split; [exact Ff|].
  pose proof (cc_small (S (length v)) ltac:(lia)) as C. pose proof (cc_pos (S (length v))) as C0. pose proof (bpow_gt_0 radix2 (-100)) as P.
  assert (Z : cc (S (length v)) * len_r v <= / 1000000 * len_r v) by (apply Rmult_le_compat_r; lra). apply Rabs_le_inv in E.
  split.
  - apply Rle_trans with (bpow radix2 (-1 + -100)); [apply bpow_le; lia|]. rewrite bpow_plus. change (bpow radix2 (-1)) with (/ 2). lra.
  - apply Rle_trans with (bpow radix2 (1 + 110)); [|apply bpow_le; lia]. rewrite bpow_plus. change (bpow radix2 1) with 2. lra.
Qed.

Lemma cosine_two u v : length u = length v -> (Z.of_nat (length u) <= 2 ^ 20)%Z -> Forall moderate u -> Forall moderate v -> nonzero u -> nonzero v ->
  exists r r' q, cosine u v (norm u) (norm v) = Ret r /\ cosine v u (norm v) (norm u) = Ret r' /\ is_fin r = true /\ is_fin r' = true /\
    Rabs (f2r r - q) <= (2 * uu + uu * uu) * Rabs q /\ Rabs (f2r r' - q) <= (2 * uu + uu * uu) * Rabs q.
Proof.
  intros Hl Hn Fu Fv Nu Nv. assert (Hn' : (Z.of_nat (length v) <= 2 ^ 20)%Z) by (rewrite <- Hl; exact Hn).
  destruct (norm_moderate u Fu Nu Hn) as [F1 B1]. destruct (norm_moderate v Fv Nv Hn') as [F2 B2].
  pose proof (all_ordinary u Fu) as Ou. pose proof (all_ordinary v Fv) as Ov.
  destruct (dot_float u v Ou Ov Hn Hl) as (Fd & Ed & _). pose proof (cauchy_len u v) as CS. pose proof (dot_le u v) as DL.
  destruct (len_moderate u Fu Nu Hn) as [L1 U1]. destruct (len_moderate v Fv Nv Hn') as [L2 U2].
  pose proof (cc_small (length u) ltac:(lia)) as C. pose proof (cc_pos (length u)) as C0.
  unfold cosine. set (n1 := norm u) in *. set (n2 := norm v) in *. pose proof (bpow_gt_0 radix2 (-120)) as P.
  assert (Z1 : feq n1 fzero = false).
  { destruct (feq n1 fzero) eqn:Z; auto. apply feq_spec in Z. destruct Z as (_ & _ & Z). rewrite fkey_fin in Z by auto. cbn in Z. lra. }
  assert (Z2 : feq n2 fzero = false).
  { destruct (feq n2 fzero) eqn:Z; auto. apply feq_spec in Z. destruct Z as (_ & _ & Z). rewrite fkey_fin in Z by auto. cbn in Z. lra. }
  rewrite Z1, Z2. cbn [orb]. rewrite !cos_dot_spec by lia. cbn [obind]. rewrite (dot_comm v u). set (d := fold_left _ (combine u v) fzero) in *.
  assert (G : fix304 (f2r d)).
  { apply (dot_fix (combine u v) fzero); [|intros _; apply fix_mult; exists 0%Z; cbn; ring|exact Fd].
    apply Forall_forall. intros [x y] H. rewrite Forall_forall in Fu, Fv. split; [apply Fu; eapply in_combine_l; eauto|apply Fv; eapply in_combine_r; eauto]. }
  assert (D : f2r d = 0 \/ bpow radix2 (-500) <= Rabs (f2r d) <= bpow radix2 500).
  { destruct (fix_big _ G) as [Z|Z]; [auto|right]. split; [eapply Rle_trans; [|exact Z]; apply bpow_le; lia|].
    assert (PP : len_r u * len_r v <= bpow radix2 110 * bpow radix2 110).
    { pose proof (bpow_gt_0 radix2 (-100)). apply Rmult_le_compat; lra. }
    rewrite <- bpow_plus in PP. change (110 + 110)%Z with 220%Z in PP.
    assert (A : Rabs (f2r d) <= Rabs (f2r d - dot_r u v) + Rabs (dot_r u v)) by (replace (f2r d) with ((f2r d - dot_r u v) + dot_r u v) at 1 by ring; apply Rabs_triang).
    assert (B : cc (length u) * sum_r (map Rabs (prods (combine u v))) <= 1 * (len_r u * len_r v)).
    { apply Rmult_le_compat; [exact C0|apply sum_abs_nonneg|lra|exact CS]. }
    apply Rle_trans with (bpow radix2 (1 + 220)); [|apply bpow_le; lia]. rewrite bpow_plus. change (bpow radix2 1) with 2. lra. }
  destruct (two_div d n1 n2 Fd B1 B2 D) as [R1 Q1]. destruct (two_div d n2 n1 Fd B2 B1 D) as [R2 Q2]. rewrite (Rmult_comm (f2r n2)) in Q2.
  exists (fdiv (fdiv d n1) n2), (fdiv (fdiv d n2) n1), (f2r d / (f2r n1 * f2r n2)). repeat split; auto.
Qed.

Lemma near_sign r q : Rabs (r - q) <= (2 * uu + uu * uu) * Rabs q -> (0 < r <-> 0 < q) /\ Rabs q * (1 - 3 * uu) <= Rabs r.
Proof.
  intros H. pose proof uu_pos as U. assert (Uv : uu <= / 1000000) by (rewrite uu_val; lra). assert (B : 2 * uu + uu * uu <= 3 * uu) by nra.
  assert (H' : Rabs (r - q) <= 3 * uu * Rabs q) by (eapply Rle_trans; [exact H|]; apply Rmult_le_compat_r; [apply Rabs_pos|exact B]).
  assert (H2 : 3 * uu * Rabs q <= / 2 * Rabs q) by (apply Rmult_le_compat_r; [apply Rabs_pos|lra]).
  split.
  - unfold Rabs in H', H2. destruct (Rcase_abs (r - q)), (Rcase_abs q); split; intros; lra.
  - assert (T : Rabs q <= Rabs (r - q) + Rabs r) by (rewrite (Rabs_minus_sym r q); replace q with ((q - r) + r) at 1 by ring; apply Rabs_triang). lra.
Qed.

Lemma cosine_symmetric u v : length u = length v -> (Z.of_nat (length u) <= 2 ^ 20)%Z -> Forall moderate u -> Forall moderate v -> nonzero u -> nonzero v ->
  exists r r', cosine u v (norm u) (norm v) = Ret r /\ cosine v u (norm v) (norm u) = Ret r' /\ is_fin r = true /\ is_fin r' = true /\
    (0 < f2r r <-> 0 < f2r r') /\ Rabs (f2r r - f2r r') <= 5 * bpow radix2 (-53) * Rabs (f2r r).
Proof.
  intros Hl Hn Fu Fv Nu Nv. destruct (cosine_two u v Hl Hn Fu Fv Nu Nv) as (r & r' & q & E & E' & F & F' & Q & Q').
  exists r, r'. split; [exact E|]. split; [exact E'|]. split; [exact F|]. split; [exact F'|]. destruct (near_sign _ _ Q) as [S1 M]. destruct (near_sign _ _ Q') as [S2 _].
  split; [tauto|]. fold uu. pose proof uu_pos as U. assert (Uv : uu <= / 1000000) by (rewrite uu_val; lra).
  assert (T : Rabs (f2r r - f2r r') <= Rabs (f2r r - q) + Rabs (f2r r' - q)).
  { rewrite (Rabs_minus_sym (f2r r') q). replace (f2r r - f2r r') with ((f2r r - q) + (q - f2r r')) by ring. apply Rabs_triang. }
  eapply Rle_trans; [exact T|]. apply Rle_trans with (2 * ((2 * uu + uu * uu) * Rabs q)); [lra|].
  apply Rle_trans with (5 * uu * (Rabs q * (1 - 3 * uu))); [|apply Rmult_le_compat_l; lra]. pose proof (Rabs_pos q) as PQ.
  assert (B : 2 * (2 * uu + uu * uu) <= 5 * uu * (1 - 3 * uu)) by nra. apply (Rmult_le_compat_r _ _ _ PQ) in B. lra.
Qed.

(** ** Searching *)
Lemma nonzero_dec v : nonzero v \/ ~ nonzero v.
Proof.
  induction v as [|x v IH]; [right; intros (? & [] & _)|]. destruct (Req_dec (f2r x) 0) as [E|E]; [|left; exists x; split; [left; reflexivity|exact E]].
  destruct IH as [(y & Hy & Ny)|IH]; [left; exists y; split; [right; exact Hy|exact Ny]|]. right. intros (y & [->|Hy] & Ny); [contradiction|]. apply IH. exists y. auto.
Qed.
Lemma zero_norm v : Forall moderate v -> ~ nonzero v -> feq (norm v) fzero = true.
Proof.
  intros F N. unfold norm.
  assert (Z : Forall (fun x : f64 => is_fin x = true /\ f2r x = 0) v).
  { apply Forall_forall. intros x Hx. rewrite Forall_forall in F. split; [apply (F x Hx)|]. destruct (Req_dec (f2r x) 0) as [E|E]; [exact E|]. exfalso. apply N. exists x. auto. }
  assert (G : forall d, is_fin d = true -> f2r d = 0 -> let r := fold_left (fun n x => fadd n (fmul x x)) v d in is_fin r = true /\ f2r r = 0).
  { clear N F. induction Z as [|x v [Fx Zx] Z IH]; intros d Fd Zd; [split; assumption|]. cbn [fold_left].
    assert (M : Rabs (rnd (f2r x * f2r x)) < F64MAX) by (rewrite Zx, Rmult_0_l, rnd_0, Rabs_R0; apply F64MAX_pos).
    destruct (fmul_fin x x Fx Fx M) as [E1 F1]. rewrite Zx, Rmult_0_l, rnd_0 in E1.
    assert (M2 : Rabs (rnd (f2r d + f2r (fmul x x))) < F64MAX) by (rewrite Zd, E1, Rplus_0_l, rnd_0, Rabs_R0; apply F64MAX_pos).
    destruct (fadd_fin d _ Fd F1 M2) as [E2 F2]. rewrite Zd, E1, Rplus_0_l, rnd_0 in E2. apply IH; assumption. }
  destruct (G fzero eq_refl eq_refl) as [Fr Zr]. cbv zeta in Fr, Zr. set (r := fold_left _ v fzero) in *. clearbody r.
  destruct r as [s|s| |s m e Hb]; try discriminate Fr; [destruct s; reflexivity|]. exfalso. unfold f2r, B2R in Zr. apply (F2R_neq_0 radix2 (Float radix2 (SpecFloat.cond_Zopp s (Zpos m)) e)) in Zr; [exact Zr|]. destruct s; discriminate.
Qed.
