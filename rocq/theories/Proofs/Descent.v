(** * Updates of pairs are steps of gradient descent *)
From Coq Require Import Reals Lra Lia List ZArith.
From Flocq Require Import Core BinarySingleNaN.
From Verif.Lib Require Import Go F64 F64Facts.
From Verif.Spec Require Import Training Cells Cosine Residual Descent.
From Verif.Proofs Require Import Cosine SavedCosine Residual.
Import ListNotations.
Local Open Scope R_scope.

(** ** Derivatives *)
Lemma quad_deriv w e a c : derivable_pt_lim (fun t => w / 2 * (e + (t - a) * c) ^ 2) a (w * e * c).
Proof.
  intros eps He. set (K := Rabs (w / 2 * (c * c)) + 1).
  assert (PK : 0 < K) by (unfold K; pose proof (Rabs_pos (w / 2 * (c * c))); lra).
  assert (PD : 0 < eps / K) by (apply Rdiv_lt_0_compat; lra).
  exists (mkposreal _ PD). intros h Hh Hd. cbn [pos] in Hd.
  replace ((w / 2 * (e + (a + h - a) * c) ^ 2 - w / 2 * (e + (a - a) * c) ^ 2) / h - w * e * c) with (w / 2 * (c * c) * h) by (field; exact Hh).
  rewrite Rabs_mult. apply Rle_lt_trans with (K * Rabs h).
  - apply Rmult_le_compat_r; [apply Rabs_pos|unfold K; lra].
  - replace eps with (K * (eps / K)) by (field; lra). apply Rmult_lt_compat_l; auto.
Qed.
Lemma deriv_ext f g x d : (forall t, f t = g t) -> derivable_pt_lim f x d -> derivable_pt_lim g x d.
Proof. intros E H eps He. destruct (H eps He) as (dl & Hd). exists dl. intros h H1 H2. rewrite <- !E. auto. Qed.

Lemma sp_rdot x y : sum_of_products x y = rdot x y. Proof. reflexivity. Qed.
Lemma rdot_upd x : forall y i t, (i < length x)%nat -> length x = length y -> rdot (upd x i t) y = rdot x y + (t - nth i x 0) * nth i y 0.
Proof.
  induction x as [|a x IH]; intros [|b y] [|i] t Hi HL; try discriminate HL; try (cbn in Hi; lia); cbn [upd nth]; rewrite !rdot_cons; [ring|].
  rewrite IH by (cbn in *; lia). ring.
Qed.

Lemma removelast_upd (v : list R) b : forall i t, (i < length v)%nat -> removelast (upd (v ++ [b]) i t) = upd v i t.
Proof.
  intros i t Hi. assert (E : upd (v ++ [b]) i t = upd v i t ++ [b]).
  { revert i Hi. induction v as [|a v IH]; intros [|i] Hi; cbn in *; try lia; [reflexivity|]. rewrite IH by lia. reflexivity. }
  rewrite E. apply removelast_last.
Qed.
Lemma upd_snoc (v : list R) b : forall i t, (i < length v)%nat -> upd (v ++ [b]) i t = upd v i t ++ [b].
Proof. induction v as [|a v IH]; intros [|i] t Hi; cbn in *; try lia; [reflexivity|]. rewrite IH by lia. reflexivity. Qed.
Lemma upd_last (v : list R) b t : upd (v ++ [b]) (length v) t = v ++ [t].
Proof. induction v as [|a v IH]; [reflexivity|]. cbn. rewrite IH. reflexivity. Qed.

(** The derivatives of the cost of GloVe with respect to a row. *)
Lemma glove_slope_first w f v b u c i : length v = length u -> (i <= length v)%nat ->
  slope (fun r => glove_cost w f r (u ++ [c])) (v ++ [b]) i (w * (rdot v u + b + c - f) * (if (i <? length v)%nat then nth i u 0 else 1)).
Proof.
  intros HL Hi. unfold slope. set (e := rdot v u + b + c - f). destruct (Nat.ltb_spec i (length v)) as [Hlt|Hge].
  - rewrite app_nth1 by exact Hlt. eapply deriv_ext; [|apply (quad_deriv w e (nth i v 0) (nth i u 0))].
    intros t. unfold glove_cost. cbv beta. rewrite upd_snoc by exact Hlt. rewrite !removelast_last, !last_last; change sum_of_products with rdot; rewrite rdot_upd by auto. unfold e. ring.
  - assert (i = length v) by lia. subst i. rewrite app_nth2 by lia. rewrite Nat.sub_diag. cbn [nth].
    eapply deriv_ext; [|apply (quad_deriv w e b 1)].
    intros t. unfold glove_cost. cbv beta. rewrite upd_last. rewrite !removelast_last, !last_last; change sum_of_products with rdot; unfold e. ring.
Qed.
Lemma glove_cost_sym w f r1 r2 : glove_cost w f r1 r2 = glove_cost w f r2 r1.
Proof. unfold glove_cost. change sum_of_products with rdot. rewrite (rdot_sym (removelast r1)). ring. Qed.
Lemma lex_slope f x y i : length x = length y -> (i < length x)%nat -> slope (fun r => lex_cost f r y) x i ((rdot x y - f) * nth i y 0).
Proof.
  intros HL Hi. unfold slope. replace ((rdot x y - f) * nth i y 0) with (1 * (rdot x y - f) * nth i y 0) by ring.
  eapply deriv_ext; [|apply (quad_deriv 1 (rdot x y - f) (nth i x 0) (nth i y 0))].
  intros t. unfold lex_cost. cbv beta. change sum_of_products with rdot. rewrite rdot_upd by auto. field.
Qed.

(** ** The stochastic step *)
Lemma sub_near (a s : f64) v tol : is_fin a = true -> is_fin s = true -> Rabs (f2r a) <= 30 -> Rabs (f2r s) <= 40 -> Rabs (f2r s - v) <= tol ->
  near (tol + / 1000000000000) (f2r a - v) (fsub a s).
Proof.
  intros Fa Fs Ha Hs Hv. assert (A : Rabs (f2r a - f2r s) <= 4096) by (apply Rabs_le_inv in Ha, Hs; apply Rabs_le; lra).
  destruct (fsub_fin a s Fa Fs (no_overflow _ A)) as (V & F). split; [exact F|]. pose proof (rnd_near _ A) as E. rewrite <- V in E.
  replace (f2r (fsub a s) - (f2r a - v)) with ((f2r (fsub a s) - (f2r a - f2r s)) - (f2r s - v)) by ring.
  eapply Rle_trans; [apply Rabs_triang|]. rewrite Rabs_Ropp. lra.
Qed.

(** A product of the factor with a component. *)
Lemma prod_near (d b : f64) v tol : is_fin d = true -> is_fin b = true -> Rabs (f2r d) <= 1 -> Rabs (f2r b) <= 30 -> Rabs (f2r d - v) <= tol ->
  is_fin (fmul d b) = true /\ Rabs (f2r (fmul d b)) <= 31 /\ Rabs (f2r (fmul d b) - v * f2r b) <= 30 * tol + / 1000000000000.
Proof.
  intros Fd Fb Hd Hb Hv. assert (A : Rabs (f2r d * f2r b) <= 30). { rewrite Rabs_mult. pose proof (Rabs_pos (f2r d)). pose proof (Rabs_pos (f2r b)). nra. }
  assert (A' : Rabs (f2r d * f2r b) <= 4096) by lra.
  destruct (fmul_fin d b Fd Fb (no_overflow _ A')) as (V & F). split; [exact F|]. pose proof (rnd_near _ A') as E. rewrite <- V in E.
  split.
  { replace (f2r (fmul d b)) with ((f2r (fmul d b) - f2r d * f2r b) + f2r d * f2r b) by ring. eapply Rle_trans; [apply Rabs_triang|]. lra. }
  replace (f2r (fmul d b) - v * f2r b) with ((f2r (fmul d b) - f2r d * f2r b) + (f2r d - v) * f2r b) by ring.
  eapply Rle_trans; [apply Rabs_triang|]. rewrite (Rabs_mult (f2r d - v)).
  assert (Rabs (f2r d - v) * Rabs (f2r b) <= tol * 30) by (apply Rmult_le_compat; try apply Rabs_pos; auto). lra.
Qed.

(** ** AdaGrad *)
Lemma sqrt_lip u v : 1 <= u -> 1 <= v -> Rabs (sqrt u - sqrt v) <= Rabs (u - v) / 2.
Proof.
  intros Hu Hv. assert (1 <= sqrt u) by (rewrite <- sqrt_1; apply sqrt_le_1_alt; lra). assert (1 <= sqrt v) by (rewrite <- sqrt_1; apply sqrt_le_1_alt; lra).
  replace (u - v) with ((sqrt u - sqrt v) * (sqrt u + sqrt v)).
  2:{ transitivity (sqrt u * sqrt u - sqrt v * sqrt v); [ring|]. rewrite !sqrt_sqrt by lra. ring. }
  rewrite Rabs_mult, (Rabs_pos_eq (sqrt u + sqrt v)) by lra. pose proof (Rabs_pos (sqrt u - sqrt v)). nra.
Qed.
(** sqrt (Q + t^2) is 1-Lipschitz in t. *)
Lemma root_lip Q s t : 1 <= Q -> Rabs (sqrt (Q + t * t) - sqrt (Q + s * s)) <= Rabs (t - s).
Proof.
  intros HQ. pose proof (Rle_0_sqr t) as T. pose proof (Rle_0_sqr s) as S. unfold Rsqr in T, S.
  set (A := sqrt (Q + t * t)). set (B := sqrt (Q + s * s)).
  assert (PA : 1 <= A) by (unfold A; rewrite <- sqrt_1; apply sqrt_le_1_alt; lra). assert (PB : 1 <= B) by (unfold B; rewrite <- sqrt_1; apply sqrt_le_1_alt; lra).
  assert (EA : A * A = Q + t * t) by (apply sqrt_sqrt; lra). assert (EB : B * B = Q + s * s) by (apply sqrt_sqrt; lra).
  assert (TA : Rabs t <= A). { apply Rsqr_incr_0_var; [|lra]. rewrite <- Rsqr_abs. unfold Rsqr. lra. }
  assert (SB : Rabs s <= B). { apply Rsqr_incr_0_var; [|lra]. rewrite <- Rsqr_abs. unfold Rsqr. lra. }
  apply (Rmult_le_reg_r (A + B)); [lra|]. rewrite <- (Rabs_pos_eq (A + B)) at 1 by lra. rewrite <- Rabs_mult.
  replace ((A - B) * (A + B)) with ((t - s) * (t + s)) by (transitivity (A * A - B * B); [rewrite EA, EB|]; ring). rewrite Rabs_mult.
  apply Rmult_le_compat_l; [apply Rabs_pos|]. eapply Rle_trans; [apply Rabs_triang|]. lra.
Qed.
(** t / sqrt (Q + t^2) is 2-Lipschitz in t, and at most 1. *)
Lemma quot_lip Q s t : 1 <= Q -> Rabs (t / sqrt (Q + t * t) - s / sqrt (Q + s * s)) <= 2 * Rabs (t - s) /\ Rabs (s / sqrt (Q + s * s)) <= 1.
Proof.
  intros HQ. pose proof (root_lip Q s t HQ) as RL. pose proof (Rle_0_sqr t) as T. pose proof (Rle_0_sqr s) as S. unfold Rsqr in T, S.
  assert (PA : 1 <= sqrt (Q + t * t)) by (rewrite <- sqrt_1 at 1; apply sqrt_le_1_alt; lra). assert (PB : 1 <= sqrt (Q + s * s)) by (rewrite <- sqrt_1 at 1; apply sqrt_le_1_alt; lra).
  assert (EB : sqrt (Q + s * s) * sqrt (Q + s * s) = Q + s * s) by (apply sqrt_sqrt; lra).
  set (A := sqrt (Q + t * t)) in *. set (B := sqrt (Q + s * s)) in *. clearbody A.
  assert (SB : Rabs s <= B). { apply Rsqr_incr_0_var; [|lra]. rewrite <- Rsqr_abs. unfold Rsqr. lra. } clearbody B.
  assert (Q1 : Rabs (s / B) <= 1). { unfold Rdiv. rewrite Rabs_mult, (Rabs_pos_eq (/ B)) by (left; apply Rinv_0_lt_compat; lra). apply (Rmult_le_reg_r B); [lra|]. rewrite Rmult_assoc, Rinv_l by lra. lra. }
  split; [|exact Q1].
  replace (t / A - s / B) with (((t - s) + s / B * (B - A)) / A) by (field; lra).
  unfold Rdiv at 1. rewrite Rabs_mult, (Rabs_pos_eq (/ A)) by (left; apply Rinv_0_lt_compat; lra).
  assert (IA : 0 < / A <= 1). { split; [apply Rinv_0_lt_compat; lra|]. rewrite <- Rinv_1. apply Rinv_le_contravar; lra. }
  assert (N : Rabs (t - s + s / B * (B - A)) <= 2 * Rabs (t - s)).
  { eapply Rle_trans; [apply Rabs_triang|]. rewrite Rabs_mult, (Rabs_minus_sym B A). pose proof (Rabs_pos (A - B)). pose proof (Rabs_pos (s / B)). nra. }
  pose proof (Rabs_pos (t - s + s / B * (B - A))). nra.
Qed.

(** The new accumulator and the quotient, in floats. *)
Lemma rnd_rel_big r : Rabs r <= 10000000 -> Rabs (rnd r - r) <= 2 / 1000000000.
Proof. intros H. eapply Rle_trans; [apply rnd_abs_err|]. fold tiny. pose proof tiny_val. rewrite uu_val. lra. Qed.
Lemma no_overflow_big r : Rabs r <= 10000000 -> Rabs (rnd r) < F64MAX.
Proof. intros H. destruct (f_of_Z_exact 10000000) as (V & _); [lia|]. apply (rnd_small r (f_of_Z 10000000)). rewrite V. exact H. Qed.

Lemma acc_near (q t : f64) s tol : is_fin q = true -> is_fin t = true -> 1 <= f2r q <= 1000000 -> Rabs (f2r t) <= 31 -> Rabs (f2r t - s) <= tol -> 0 <= tol <= 1 ->
  is_fin (fadd q (fmul t t)) = true /\ 1 <= f2r (fadd q (fmul t t)) <= 1001000 /\
  Rabs (f2r (fadd q (fmul t t)) - (f2r q + f2r t * f2r t)) <= 3 / 1000000000 /\
  Rabs (f2r (fadd q (fmul t t)) - (f2r q + s * s)) <= 63 * tol + 3 / 1000000000.
Proof.
  intros Fq Ft Hq Ht Hs Htol. set (tt_ := f2r t) in *. assert (A : Rabs (tt_ * tt_) <= 961). { rewrite Rabs_mult. pose proof (Rabs_pos tt_). nra. }
  assert (A' : Rabs (tt_ * tt_) <= 4096) by lra. destruct (fmul_fin t t Ft Ft (no_overflow _ A')) as (V & F). fold tt_ in V. pose proof (rnd_near _ A') as E. rewrite <- V in E.
  assert (P : 0 <= tt_ * tt_) by apply Rle_0_sqr. rewrite Rabs_pos_eq in A by exact P.
  assert (P2 : 0 <= f2r (fmul t t)). { rewrite V. apply (rnd_ge_f _ fzero). exact P. }
  apply Rabs_le_inv in E. assert (B : Rabs (f2r q + f2r (fmul t t)) <= 10000000) by (apply Rabs_le; lra).
  destruct (fadd_fin q (fmul t t) Fq F (no_overflow_big _ B)) as (V2 & F2). pose proof (rnd_rel_big _ B) as E2. rewrite <- V2 in E2. apply Rabs_le_inv in E2.
  split; [exact F2|]. split.
  { split; [|lra]. rewrite V2. destruct (f_of_Z_exact 1) as (V1 & _); [lia|]. rewrite <- V1 at 1. apply rnd_ge_f. rewrite V1. lra. }
  split; [apply Rabs_le; lra|].
  assert (K : Rabs (tt_ * tt_ - s * s) <= 63 * tol).
  { replace (tt_ * tt_ - s * s) with ((tt_ - s) * (tt_ + s)) by ring. rewrite Rabs_mult. rewrite Rmult_comm. apply Rmult_le_compat; try apply Rabs_pos; [|exact Hs].
    apply Rabs_le_inv in Ht, Hs. apply Rabs_le. lra. }
  apply Rabs_le_inv in K. apply Rabs_le. lra.
Qed.

(** Dividing by the square root of a float. *)
Lemma root_near (q : f64) : is_fin q = true -> 1 <= f2r q <= 1001000 -> is_fin (fsqrt q) = true /\ 1 <= f2r (fsqrt q) /\ Rabs (f2r (fsqrt q) - sqrt (f2r q)) <= / 1000000000000.
Proof.
  intros Fq Hq. split; [apply fsqrt_fin; [exact Fq|lra]|]. rewrite fsqrt_real.
  assert (S1 : 1 <= sqrt (f2r q)) by (rewrite <- sqrt_1 at 1; apply sqrt_le_1_alt; lra).
  assert (S2 : sqrt (f2r q) <= 4096). { rewrite <- (sqrt_square 4096) by lra. apply sqrt_le_1_alt. lra. }
  split; [|apply rnd_near; rewrite Rabs_pos_eq; lra].
  destruct (f_of_Z_exact 1) as (V1 & _); [lia|]. rewrite <- V1 at 1. apply rnd_ge_f. rewrite V1. exact S1.
Qed.
Lemma quot_near (t w : f64) B : is_fin t = true -> is_fin w = true -> 1 <= f2r w -> Rabs (f2r t) <= 31 -> 1 <= B -> Rabs (f2r w - B) <= 2 / 1000000000 -> Rabs (f2r t) <= B + 30 ->
  is_fin (fdiv t w) = true /\ Rabs (f2r (fdiv t w)) <= 32 /\ Rabs (f2r (fdiv t w) - f2r t / B) <= 7 / 100000000.
Proof.
  intros Ft Fw Hw Ht HB HwB _. set (x := f2r t) in *. set (y := f2r w) in *.
  assert (IY : 0 < / y <= 1). { split; [apply Rinv_0_lt_compat; lra|]. rewrite <- Rinv_1. apply Rinv_le_contravar; lra. }
  assert (IB : 0 < / B <= 1). { split; [apply Rinv_0_lt_compat; lra|]. rewrite <- Rinv_1. apply Rinv_le_contravar; lra. }
  assert (A : Rabs (x / y) <= 31). { unfold Rdiv. rewrite Rabs_mult, (Rabs_pos_eq (/ y)) by lra. pose proof (Rabs_pos x). nra. }
  assert (A' : Rabs (x / y) <= 4096) by lra.
  destruct (fdiv_fin t w Ft ltac:(fold y; lra) (no_overflow _ A')) as (V & F). fold x y in V. split; [exact F|]. pose proof (rnd_near _ A') as E. rewrite <- V in E.
  split.
  { replace (f2r (fdiv t w)) with ((f2r (fdiv t w) - x / y) + x / y) by ring. eapply Rle_trans; [apply Rabs_triang|]. lra. }
  replace (f2r (fdiv t w) - x / B) with ((f2r (fdiv t w) - x / y) + x * (B - y) * (/ y * / B)) by (field; lra).
  eapply Rle_trans; [apply Rabs_triang|]. rewrite !Rabs_mult, (Rabs_pos_eq (/ y)), (Rabs_pos_eq (/ B)), (Rabs_minus_sym B y) by lra.
  assert (M1 : Rabs x * Rabs (y - B) <= 31 * (2 / 1000000000)) by (apply Rmult_le_compat; try apply Rabs_pos; auto).
  assert (M2 : / y * / B <= 1) by nra. assert (P : 0 <= Rabs x * Rabs (y - B)) by (apply Rmult_le_pos; apply Rabs_pos). assert (0 < / y * / B) by nra.
  assert (Rabs x * Rabs (y - B) * (/ y * / B) <= 31 * (2 / 1000000000) * 1) by (apply Rmult_le_compat; lra). lra.
Qed.

Lemma ada_quot (q t : f64) s tol : is_fin q = true -> is_fin t = true -> 1 <= f2r q <= 1000000 -> Rabs (f2r t) <= 31 -> Rabs (f2r t - s) <= tol -> 0 <= tol <= 1 ->
  let u := fdiv t (fsqrt (fadd q (fmul t t))) in
  is_fin u = true /\ Rabs (f2r u) <= 32 /\ Rabs (f2r u - s / sqrt (f2r q + s * s)) <= 2 * tol + / 10000000.
Proof.
  intros Fq Ft Hq Ht Hs Htol u. destruct (acc_near q t s tol Fq Ft Hq Ht Hs Htol) as (Fa & Ba & Ea & _).
  destruct (root_near _ Fa ltac:(lra)) as (Fr & Br & Er).
  pose proof (Rle_0_sqr (f2r t)) as T. unfold Rsqr in T.
  pose proof (sqrt_lip (f2r (fadd q (fmul t t))) (f2r q + f2r t * f2r t) ltac:(lra) ltac:(lra)) as L.
  assert (EB : Rabs (f2r (fsqrt (fadd q (fmul t t))) - sqrt (f2r q + f2r t * f2r t)) <= 2 / 1000000000).
  { replace (f2r (fsqrt (fadd q (fmul t t))) - sqrt (f2r q + f2r t * f2r t)) with
      ((f2r (fsqrt (fadd q (fmul t t))) - sqrt (f2r (fadd q (fmul t t)))) + (sqrt (f2r (fadd q (fmul t t))) - sqrt (f2r q + f2r t * f2r t))) by ring.
    eapply Rle_trans; [apply Rabs_triang|]. lra. }
  assert (B1 : 1 <= sqrt (f2r q + f2r t * f2r t)) by (rewrite <- sqrt_1 at 1; apply sqrt_le_1_alt; lra).
  destruct (quot_near t (fsqrt (fadd q (fmul t t))) _ Ft Fr Br Ht B1 EB ltac:(lra)) as (F & B & E). fold u in F, B, E.
  split; [exact F|]. split; [exact B|].
  destruct (quot_lip (f2r q) s (f2r t) ltac:(lra)) as (QL & _).
  replace (f2r u - s / sqrt (f2r q + s * s)) with ((f2r u - f2r t / sqrt (f2r q + f2r t * f2r t)) + (f2r t / sqrt (f2r q + f2r t * f2r t) - s / sqrt (f2r q + s * s))) by ring.
  eapply Rle_trans; [apply Rabs_triang|]. lra.
Qed.

(** The bias divides by the root of its old accumulator. *)
Lemma ada_quot_old (q d : f64) s tol : is_fin q = true -> is_fin d = true -> 1 <= f2r q <= 1000000 -> Rabs (f2r d) <= 31 -> Rabs (f2r d - s) <= tol -> 0 <= tol <= 1 ->
  let u := fdiv d (fsqrt q) in is_fin u = true /\ Rabs (f2r u) <= 32 /\ Rabs (f2r u - s / sqrt (f2r q)) <= 2 * tol + / 10000000.
Proof.
  intros Fq Fd Hq Hd Hs Htol u. destruct (root_near q Fq ltac:(lra)) as (Fr & Br & Er).
  assert (B1 : 1 <= sqrt (f2r q)) by (rewrite <- sqrt_1 at 1; apply sqrt_le_1_alt; lra).
  destruct (quot_near d (fsqrt q) _ Fd Fr Br Hd B1 ltac:(lra) ltac:(lra)) as (F & B & E). fold u in F, B, E. split; [exact F|]. split; [exact B|].
  assert (IB : 0 < / sqrt (f2r q) <= 1). { split; [apply Rinv_0_lt_compat; lra|]. rewrite <- Rinv_1. apply Rinv_le_contravar; lra. }
  replace (f2r u - s / sqrt (f2r q)) with ((f2r u - f2r d / sqrt (f2r q)) + (f2r d - s) * / sqrt (f2r q)) by (unfold Rdiv; ring).
  eapply Rle_trans; [apply Rabs_triang|]. rewrite (Rabs_mult (f2r d - s)), (Rabs_pos_eq (/ sqrt (f2r q))) by lra. pose proof (Rabs_pos (f2r d - s)). nra.
Qed.
