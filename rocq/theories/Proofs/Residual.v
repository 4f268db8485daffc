(** * One step of gradient descent on a pair shrinks its error *)
From Coq Require Import Reals Lra Lia List ZArith.
From Flocq Require Import Core BinarySingleNaN.
From Verif.Lib Require Import Go F64 F64Facts.
From Verif.Spec Require Import Training Cells Cosine Residual.
From Verif.Proofs Require Import Cosine SavedCosine.
Import ListNotations.
Local Open Scope R_scope.

Definition tiny : R := bpow radix2 (-1075).
Lemma tiny_val : 0 <= tiny <= / 1000000000000000000000000000000.
Proof.
  unfold tiny. split; [apply bpow_ge_0|]. apply Rle_trans with (bpow radix2 (-120)); [apply bpow_le; lia|].
  change (bpow radix2 (-120)) with (/ 1329227995784915872903807060280344576). lra.
Qed.
Lemma no_overflow r : Rabs r <= 4096 -> Rabs (rnd r) < F64MAX.
Proof. intros H. destruct (f_of_Z_exact 4096) as (V & _); [lia|]. apply (rnd_small r (f_of_Z 4096)). rewrite V. exact H. Qed.
Lemma rnd_near r : Rabs r <= 4096 -> Rabs (rnd r - r) <= / 1000000000000.
Proof. intros H. eapply Rle_trans; [apply rnd_abs_err|]. fold tiny. pose proof tiny_val. rewrite uu_val. lra. Qed.

(** ** The factor *)
Lemma factor (s c : f64) e eta : is_fin s = true -> is_fin c = true -> Rabs (f2r s - e) <= 21 / 100000000 -> Rabs e <= 1000 -> 0 <= eta <= 1 ->
  Rabs (f2r c - eta) <= uu * eta + tiny ->
  is_fin (fmul s c) = true /\ Rabs (f2r (fmul s c) - eta * e) <= 3 / 10000000 * eta + / 1000000000000.
Proof.
  intros Fs Fc Hs He Heta Hc. pose proof tiny_val as T. rewrite uu_val in Hc.
  set (x := f2r s) in *. set (y := f2r c) in *. apply Rabs_le_inv in Hs. apply Rabs_le_inv in He. apply Rabs_le_inv in Hc.
  assert (Ax : Rabs x <= 1001) by (apply Rabs_le; lra). assert (Ay : Rabs y <= 2) by (apply Rabs_le; lra).
  assert (Axy : Rabs (x * y) <= 2002). { rewrite Rabs_mult. pose proof (Rabs_pos x). pose proof (Rabs_pos y). nra. }
  destruct (fmul_fin s c Fs Fc) as (V & F). { fold x y. apply no_overflow. lra. }
  split; [exact F|]. rewrite V. fold x y.
  assert (K1 : Rabs (x * (y - eta)) <= 1001 * (/ 9007199254740992 * eta + tiny)).
  { rewrite Rabs_mult. apply Rmult_le_compat; try apply Rabs_pos; [exact Ax|]. apply Rabs_le. lra. }
  assert (K2 : Rabs ((x - e) * eta) <= 21 / 100000000 * eta).
  { rewrite Rabs_mult, (Rabs_pos_eq eta) by lra. apply Rmult_le_compat_r; [lra|]. apply Rabs_le. lra. }
  pose proof (rnd_abs_err (x * y)) as K3. fold tiny in K3. rewrite uu_val in K3.
  assert (Axy' : Rabs (x * y) <= 1001 * (eta + (/ 9007199254740992 * eta + tiny))).
  { rewrite Rabs_mult. apply Rmult_le_compat; try apply Rabs_pos; [exact Ax|]. apply Rabs_le. lra. }
  replace (rnd (x * y) - eta * e) with ((rnd (x * y) - x * y) + (x * (y - eta) + (x - e) * eta)) by ring.
  eapply Rle_trans; [apply Rabs_triang|]. eapply Rle_trans; [apply Rplus_le_compat_l, Rabs_triang|]. lra.
Qed.

(** ** The shrinking, with an inexact factor *)
Lemma shrink eta e S p d : 0 <= eta <= 1 -> 0 <= S <= 2000 -> Rabs p <= S / 2 -> eta * (S + Rabs e) <= 1 / 2 ->
  Rabs (d - eta * e) <= 3 / 10000000 * eta + / 1000000000000 ->
  Rabs (e - d * S + d * d * p) <= (1 - eta * S / 2) * Rabs e + 9 / 10000000.
Proof.
  intros He HS Hp Hg Hd. set (th := d - eta * e) in *. replace d with (eta * e + th) by (unfold th; ring).
  pose proof (Rabs_pos e) as Pe. set (E := Rabs e) in *.
  assert (ES : 0 <= eta * S) by (apply Rmult_le_pos; lra). assert (EE : 0 <= eta * E) by (apply Rmult_le_pos; lra).
  assert (G1 : eta * S <= 1 / 2) by lra. assert (G2 : eta * E <= 1 / 2) by lra.
  (* the exact part *)
  assert (M : Rabs (e - eta * e * S + eta * e * (eta * e) * p) <= (1 - eta * S / 2) * E).
  { replace (e - eta * e * S + eta * e * (eta * e) * p) with (e * (1 - eta * S + eta * (eta * e * p))) by ring. rewrite Rabs_mult. fold E. rewrite Rmult_comm.
    apply Rmult_le_compat_r; [exact Pe|].
    assert (Q : Rabs (eta * (eta * e * p)) <= eta * S / 4).
    { rewrite !Rabs_mult, (Rabs_pos_eq eta) by lra. fold E. pose proof (Rabs_pos p) as Pp.
      assert (eta * E * Rabs p <= 1 / 2 * (S / 2)) by (apply Rmult_le_compat; lra).
      assert (eta * (eta * E * Rabs p) <= eta * (1 / 2 * (S / 2))) by (apply Rmult_le_compat_l; lra). lra. }
    apply Rabs_le_inv in Q. apply Rabs_le. lra. }
  (* the rest *)
  assert (T : Rabs (- th * S + (2 * (eta * e) * th + th * th) * p) <= 9 / 10000000).
  { assert (At : Rabs th <= 3 / 10000000 * eta + / 1000000000000) by exact Hd. pose proof (Rabs_pos th) as Pt. set (t := Rabs th) in *.
    assert (TS : t * S <= 3 / 10000000 * (1 / 2) + / 1000000000000 * 2000).
    { apply Rle_trans with ((3 / 10000000 * eta + / 1000000000000) * S); [apply Rmult_le_compat_r; lra|].
      rewrite Rmult_plus_distr_r. apply Rplus_le_compat; [rewrite Rmult_assoc; lra|lra]. }
    assert (K1 : Rabs (- th * S) <= t * S) by (rewrite Rabs_mult, Rabs_Ropp, (Rabs_pos_eq S) by lra; fold t; lra).
    assert (K2 : Rabs ((2 * (eta * e) * th + th * th) * p) <= (t + t) * (S / 2)).
    { rewrite Rabs_mult. apply Rmult_le_compat; try apply Rabs_pos; [|exact Hp]. eapply Rle_trans; [apply Rabs_triang|]. rewrite !Rabs_mult. fold t.
      rewrite (Rabs_pos_eq 2), (Rabs_pos_eq eta) by lra. fold E. assert (t <= 1) by lra. assert (2 * (eta * E) * t <= 1 * t) by (apply Rmult_le_compat_r; lra).
      assert (t * t <= 1 * t) by (apply Rmult_le_compat_r; lra). lra. }
    eapply Rle_trans; [apply Rabs_triang|]. lra. }
  replace (e - (eta * e + th) * S + (eta * e + th) * (eta * e + th) * p)
    with ((e - eta * e * S + eta * e * (eta * e) * p) + (- th * S + (2 * (eta * e) * th + th * th) * p)) by ring.
  eapply Rle_trans; [apply Rabs_triang|]. lra.
Qed.

(** ** The new rows *)
Definition axr (d : R) (a b : list R) : list R := map (fun p => fst p - d * snd p) (combine a b).
Lemma axr_dot d e a : forall b x y, length a = length b -> length x = length y -> length a = length x ->
  rdot (axr d a b) (axr e x y) = rdot a x - e * rdot a y - d * rdot b x + d * e * rdot b y.
Proof.
  induction a as [|s a IH]; intros [|t b] [|u x] [|v y] H1 H2 H3; try discriminate H1; try discriminate H2; try discriminate H3; [unfold rdot; cbn; ring|].
  change (axr d (s :: a) (t :: b)) with ((s - d * t) :: axr d a b). change (axr e (u :: x) (v :: y)) with ((u - e * v) :: axr e x y).
  rewrite !rdot_cons, IH by (cbn in *; lia). ring.
Qed.
Lemma axr_len d a b : length a = length b -> rlen (axr d a b) <= rlen a + Rabs d * rlen b.
Proof.
  intros HL. apply Rsqr_incr_0_var; [|pose proof (rlen_pos a); pose proof (rlen_pos b); pose proof (Rabs_pos d); nra]. unfold Rsqr. rewrite rlen_sq, axr_dot by auto.
  pose proof (rcauchy a b) as C. rewrite (rdot_sym b a).
  assert (K : - (d * rdot a b) <= Rabs d * (rlen a * rlen b)).
  { apply Rle_trans with (Rabs (d * rdot a b)); [rewrite <- Rabs_Ropp; apply Rle_abs|]. rewrite Rabs_mult. apply Rmult_le_compat_l; [apply Rabs_pos|exact C]. }
  assert (K2 : d * d = Rabs d * Rabs d) by (rewrite <- Rabs_mult, Rabs_pos_eq; [reflexivity|apply Rle_0_sqr]).
  rewrite K2, <- (rlen_sq a), <- (rlen_sq b). lra.
Qed.

Lemma step_num (a b d : f64) : is_fin a = true -> is_fin b = true -> is_fin d = true -> Rabs (f2r a) <= 30 -> Rabs (f2r b) <= 30 -> Rabs (f2r d) <= 1 ->
  is_fin (fsub a (fmul d b)) = true /\ Rabs (f2r (fsub a (fmul d b)) - (f2r a - f2r d * f2r b)) <= 2 / 100000000000000.
Proof.
  intros Fa Fb Fd Ha Hb Hd. pose proof tiny_val as T.
  assert (A1 : Rabs (f2r d * f2r b) <= 30). { rewrite Rabs_mult. pose proof (Rabs_pos (f2r d)). pose proof (Rabs_pos (f2r b)). nra. }
  destruct (fmul_fin d b Fd Fb) as (V & F). { apply no_overflow. lra. }
  pose proof (rnd_abs_err (f2r d * f2r b)) as E1. fold tiny in E1. rewrite uu_val in E1.
  assert (A2 : Rabs (f2r a - rnd (f2r d * f2r b)) <= 61). { assert (E1' : Rabs (rnd (f2r d * f2r b) - f2r d * f2r b) <= 1) by lra. apply Rabs_le_inv in E1', A1, Ha. apply Rabs_le. lra. }
  destruct (fsub_fin a (fmul d b) Fa F) as (V2 & F2). { rewrite V. apply no_overflow. lra. }
  split; [exact F2|]. rewrite V2, V. pose proof (rnd_abs_err (f2r a - rnd (f2r d * f2r b))) as E2. fold tiny in E2. rewrite uu_val in E2.
  replace (rnd (f2r a - rnd (f2r d * f2r b)) - (f2r a - f2r d * f2r b)) with
    ((rnd (f2r a - rnd (f2r d * f2r b)) - (f2r a - rnd (f2r d * f2r b))) - (rnd (f2r d * f2r b) - f2r d * f2r b)) by ring.
  eapply Rle_trans; [apply Rabs_triang|]. rewrite Rabs_Ropp. lra.
Qed.

Lemma comp_le_len v : forall x, In x v -> Rabs (f2r x) <= len_r v.
Proof.
  intros x Hx. rewrite len_r_rlen. apply Rsqr_incr_0_var; [|apply rlen_pos]. rewrite <- Rsqr_abs. unfold Rsqr. rewrite rlen_sq.
  induction v as [|y v IH]; [destruct Hx|]. cbn [map]. rewrite rdot_cons. pose proof (rdot_sq (map f2r v)) as P. pose proof (Rle_0_sqr (f2r y)) as Q. unfold Rsqr in Q.
  destruct Hx as [->|Hx]; [lra|]. specialize (IH Hx). lra.
Qed.

Lemma step_row_cons d a x b y : step_row d (a :: x) (b :: y) = fsub a (fmul d b) :: step_row d x y. Proof. reflexivity. Qed.

(** The new row is the exact one up to a small vector. *)
Lemma step_row_close (d : f64) : is_fin d = true -> Rabs (f2r d) <= 1 -> forall x y : list f64, length x = length y ->
  Forall (fun a : f64 => is_fin a = true /\ Rabs (f2r a) <= 30) x -> Forall (fun a : f64 => is_fin a = true /\ Rabs (f2r a) <= 30) y ->
  Forall (fun a : f64 => is_fin a = true) (step_row d x y) /\
  length (step_row d x y) = length x /\
  Forall (fun r => Rabs r <= 2 / 100000000000000) (rsub (map f2r (step_row d x y)) (axr (f2r d) (map f2r x) (map f2r y))).
Proof.
  intros Fd Hd. induction x as [|a x IH]; intros [|b y] HL Hx Hy; try discriminate HL; [repeat split; constructor|].
  injection HL as HL. inversion Hx as [|? ? (Fa & Ba) Hx']; subst. inversion Hy as [|? ? (Fb & Bb) Hy']; subst. destruct (IH y HL Hx' Hy') as (I1 & I2 & I3).
  destruct (step_num a b d Fa Fb Fd Ba Bb Hd) as (N1 & N2). rewrite step_row_cons. split; [constructor; auto|]. split; [cbn [length]; congruence|].
  cbn [map]. change (axr (f2r d) (f2r a :: map f2r x) (f2r b :: map f2r y)) with ((f2r a - f2r d * f2r b) :: axr (f2r d) (map f2r x) (map f2r y)).
  change (rsub (?p :: ?q) (?r :: ?s)) with ((p - r) :: rsub q s). constructor; [exact N2|exact I3].
Qed.
Lemma axr_length d a b : length (axr d a b) = Nat.min (length a) (length b). Proof. unfold axr. rewrite map_length. apply combine_length. Qed.

Lemma small_comp v : small v -> Forall (fun a : f64 => is_fin a = true /\ Rabs (f2r a) <= 30) v.
Proof.
  intros (_ & O & L). rewrite Forall_forall in *. intros x Hx. split; [exact (O x Hx)|]. eapply Rle_trans; [apply comp_le_len; exact Hx|exact L].
Qed.

Lemma vec_step (x y : list f64) (d : f64) : length x = length y -> small x -> small y -> is_fin d = true -> Rabs (f2r d) <= 1 ->
  Rabs (dot_r (step_row d x y) (step_row d y x) -
        (dot_r x y - f2r d * (dot_r x x + dot_r y y) + f2r d * f2r d * dot_r x y)) <= / 100000000.
Proof.
  intros HL Sx Sy Fd Hd. destruct (step_row_close d Fd Hd x y HL (small_comp x Sx) (small_comp y Sy)) as (_ & L1 & C1).
  destruct (step_row_close d Fd Hd y x (eq_sym HL) (small_comp y Sy) (small_comp x Sx)) as (_ & L2 & C2).
  destruct Sx as (Nx & _ & Bx). destruct Sy as (_ & _ & By). rewrite len_r_rlen in Bx, By.
  set (dd := f2r d) in *. set (X := map f2r x) in *. set (Y := map f2r y) in *.
  assert (LX : length X = length x) by apply map_length. assert (LY : length Y = length y) by apply map_length.
  assert (LXY : length X = length Y) by (rewrite LX, LY; exact HL).
  set (A := axr dd X Y) in *. set (B := axr dd Y X) in *. set (A' := map f2r (step_row d x y)) in *. set (B' := map f2r (step_row d y x)) in *.
  assert (LA : length A = length x) by (unfold A; rewrite axr_length, LX, LY; rewrite HL; apply Nat.min_id).
  assert (LB : length B = length x) by (unfold B; rewrite axr_length, LX, LY; rewrite HL; apply Nat.min_id).
  assert (LA' : length A' = length x) by (unfold A'; rewrite map_length; exact L1).
  assert (LB' : length B' = length x) by (unfold B'; rewrite map_length; etransitivity; [exact L2|symmetry; exact HL]).
  assert (SQ : sqrt (INR (length x)) <= 1024).
  { rewrite <- (sqrt_square 1024) by lra. apply sqrt_le_1_alt. rewrite INR_IZR_INZ. apply IZR_le in Nx. change (2 ^ 20)%Z with 1048576%Z in Nx. lra. }
  assert (EA : rlen (rsub A' A) <= 3 / 100000000000).
  { eapply Rle_trans; [apply rlen_small; [|exact C1]; lra|]. unfold rsub. rewrite map_length, combine_length, LA, LA', Nat.min_id.
    pose proof (sqrt_pos (INR (length x))). lra. }
  assert (EB : rlen (rsub B' B) <= 3 / 100000000000).
  { eapply Rle_trans; [apply rlen_small; [|exact C2]; lra|]. unfold rsub. rewrite map_length, combine_length, LB, LB', Nat.min_id.
    pose proof (sqrt_pos (INR (length x))). lra. }
  pose proof (Rabs_pos dd) as Pd. pose proof (rlen_pos X) as PX. pose proof (rlen_pos Y) as PY.
  assert (NA : rlen A <= 60). { eapply Rle_trans; [apply axr_len; exact LXY|]. nra. }
  assert (NB : rlen B <= 60). { eapply Rle_trans; [apply axr_len; symmetry; exact LXY|]. nra. }
  assert (NB' : rlen B' <= 61). { eapply Rle_trans; [apply (rlen_triangle B' B); congruence|]. lra. }
  rewrite !dot_r_rdot. fold A' B' X Y.
  replace (rdot X Y - dd * (rdot X X + rdot Y Y) + dd * dd * rdot X Y) with (rdot A B).
  2:{ unfold A, B. rewrite axr_dot by congruence. rewrite (rdot_sym Y X). ring. }
  replace (rdot A' B' - rdot A B) with (rdot (rsub A' A) B' + rdot (rsub B' B) A).
  2:{ rewrite !rdot_sub by congruence. rewrite (rdot_sym B' A), (rdot_sym B A). ring. }
  eapply Rle_trans; [apply Rabs_triang|].
  pose proof (rcauchy (rsub A' A) B') as Q1. pose proof (rcauchy (rsub B' B) A) as Q2.
  pose proof (rlen_pos (rsub A' A)). pose proof (rlen_pos (rsub B' B)). pose proof (rlen_pos A). pose proof (rlen_pos B').
  assert (rlen (rsub A' A) * rlen B' <= 3 / 100000000000 * 61) by (apply Rmult_le_compat; lra).
  assert (rlen (rsub B' B) * rlen A <= 3 / 100000000000 * 60) by (apply Rmult_le_compat; lra). lra.
Qed.

(** ** The dot product *)
Lemma dot_loop_near : forall (l : list (f64 * f64)) (acc : f64) r A k, is_fin acc = true ->
  Forall (fun p : f64 * f64 => (is_fin (fst p) = true /\ Rabs (f2r (fst p)) <= 30) /\ (is_fin (snd p) = true /\ Rabs (f2r (snd p)) <= 30)) l ->
  Rabs r <= A -> A + sum_r (map Rabs (prods l)) <= 900 -> (Z.of_nat (k + length l) <= 2 ^ 20)%Z ->
  Rabs (f2r acc - r) <= uu * A + INR k * (uu * 901 + 2 * tiny) ->
  let d := fold_left (fun d p => fadd d (fmul (fst p) (snd p))) l acc in
  is_fin d = true /\
  Rabs (f2r d - (r + sum_r (prods l))) <= uu * (A + sum_r (map Rabs (prods l))) + INR (k + length l) * (uu * 901 + 2 * tiny).
Proof.
  induction l as [|(a, b) l IH]; intros acc r A k Fa HF Hr HA Hk He d.
  - cbn [fold_left] in d. subst d. split; [exact Fa|]. unfold prods. cbn [map sum_r fold_right length]. rewrite Nat.add_0_r, !Rplus_0_r. exact He.
  - inversion HF as [|? ? ((F1 & B1) & F2 & B2) HF']; subst. cbn [fst snd] in F1, B1, F2, B2.
    pose proof tiny_val as T.
    assert (PS : sum_r (map Rabs (prods ((a, b) :: l))) = Rabs (f2r a * f2r b) + sum_r (map Rabs (prods l))) by reflexivity.
    assert (PS2 : sum_r (prods ((a, b) :: l)) = f2r a * f2r b + sum_r (prods l)) by reflexivity. rewrite PS in HA. rewrite PS, PS2.
    assert (NN : 0 <= sum_r (map Rabs (prods l))) by apply sum_abs_nonneg.
    set (q := f2r a * f2r b) in *. pose proof (Rabs_pos q) as Pq. pose proof (Rabs_pos r) as Pr.
    assert (KB : 0 <= INR k <= 1048576). { split; [apply pos_INR|]. rewrite INR_IZR_INZ. apply IZR_le. cbn [length] in Hk. change (2 ^ 20)%Z with 1048576%Z in Hk. lia. }
    assert (EB : uu * A + INR k * (uu * 901 + 2 * tiny) <= / 1000000).
    { assert (INR k * (uu * 901 + 2 * tiny) <= 1048576 * (uu * 901 + 2 * tiny)) by (apply Rmult_le_compat_r; [rewrite uu_val; lra|lra]). rewrite uu_val in *. lra. }
    destruct (fmul_fin a b F1 F2) as (V & Fp). { fold q. apply no_overflow. lra. }
    pose proof (rnd_abs_err q) as E1. fold tiny in E1. unfold q in E1. rewrite <- V in E1. fold q in E1.
    assert (E1s : Rabs (f2r (fmul a b) - q) <= / 1000000) by (rewrite uu_val in E1; lra).
    assert (TB : Rabs (f2r acc + f2r (fmul a b)) <= 901).
    { replace (f2r acc + f2r (fmul a b)) with ((f2r acc - r) + (f2r (fmul a b) - q) + (r + q)) by ring.
      eapply Rle_trans; [apply Rabs_triang|]. eapply Rle_trans; [apply Rplus_le_compat_r, Rabs_triang|]. pose proof (Rabs_triang r q). lra. }
    destruct (fadd_fin acc (fmul a b) Fa Fp) as (V2 & Fs). { apply no_overflow. lra. }
    pose proof (rnd_abs_err (f2r acc + f2r (fmul a b))) as E2. fold tiny in E2. rewrite <- V2 in E2.
    assert (UP : 0 <= uu) by (rewrite uu_val; lra).
    assert (E2s : Rabs (f2r (fadd acc (fmul a b)) - (f2r acc + f2r (fmul a b))) <= uu * 901 + tiny).
    { eapply Rle_trans; [exact E2|]. apply Rplus_le_compat_r. apply Rmult_le_compat_l; auto. }
    destruct (IH (fadd acc (fmul a b)) (r + q) (A + Rabs q) (S k) Fs HF') as (G1 & G2).
    + eapply Rle_trans; [apply Rabs_triang|]. lra.
    + lra.
    + cbn [length] in Hk. lia.
    + replace (f2r (fadd acc (fmul a b)) - (r + q)) with ((f2r (fadd acc (fmul a b)) - (f2r acc + f2r (fmul a b))) + (f2r acc - r) + (f2r (fmul a b) - q)) by ring.
      eapply Rle_trans; [apply Rabs_triang|]. eapply Rle_trans; [apply Rplus_le_compat_r, Rabs_triang|]. rewrite S_INR. lra.
    + cbn [fold_left] in d. cbn [fst snd] in d. subst d. split; [exact G1|]. cbn [length]. replace (k + S (length l))%nat with (S k + length l)%nat by lia.
      rewrite <- !Rplus_assoc in *. exact G2.
Qed.

Lemma dot_near x y : length x = length y -> small x -> small y ->
  is_fin (dot x y) = true /\ Rabs (f2r (dot x y) - dot_r x y) <= 2 / 10000000 /\ Rabs (dot_r x y) <= 900 /\
  0 <= dot_r x x <= 900 /\ 0 <= dot_r y y <= 900 /\ Rabs (dot_r x y) <= (dot_r x x + dot_r y y) / 2.
Proof.
  intros HL Sx Sy. pose proof (small_comp x Sx) as Ox. pose proof (small_comp y Sy) as Oy. destruct Sx as (Nx & _ & Bx). destruct Sy as (Ny & _ & By).
  pose proof (cauchy_len x y) as CL. pose proof (dot_le x y) as DL.
  assert (Px : 0 <= len_r x) by apply sqrt_pos. assert (Py : 0 <= len_r y) by apply sqrt_pos.
  assert (XX : dot_r x x = len_r x * len_r x) by (rewrite len_r_rlen, rlen_sq, dot_r_rdot; reflexivity).
  assert (YY : dot_r y y = len_r y * len_r y) by (rewrite len_r_rlen, rlen_sq, dot_r_rdot; reflexivity).
  assert (P9 : len_r x * len_r y <= 30 * 30) by (apply Rmult_le_compat; lra).
  assert (EL : length (combine x y) = length x) by (rewrite combine_length; lia).
  destruct (dot_loop_near (combine x y) fzero 0 0 0) as (F & E).
  - reflexivity.
  - clear - Ox Oy HL. revert y HL Oy. induction Ox as [|a x Ha Hx IH]; intros [|b y] HL Oy; try discriminate HL; [constructor|]. apply eq_add_S in HL. inversion Oy; subst. constructor; [split; assumption|]. apply IH; assumption.
  - rewrite Rabs_R0. lra.
  - lra.
  - rewrite EL. exact Nx.
  - rewrite fzero_r, Rminus_0_r, Rabs_R0, Rmult_0_r. cbn [INR]. lra.
  - fold (dot x y) in F, E. split; [exact F|]. split.
    { rewrite Rplus_0_l in E. change (sum_r (prods (combine x y))) with (dot_r x y) in E. eapply Rle_trans; [exact E|]. rewrite EL. cbn [Nat.add]. rewrite Rplus_0_l.
      assert (INR (length x) <= 1048576) by (rewrite INR_IZR_INZ; apply IZR_le; exact Nx). pose proof tiny_val. rewrite uu_val.
      assert (INR (length x) * (/ 9007199254740992 * 901 + 2 * tiny) <= 1048576 * (/ 9007199254740992 * 901 + 2 * tiny)) by (apply Rmult_le_compat_r; lra). lra. }
    split; [lra|]. rewrite XX, YY. split; [nra|]. split; [nra|]. pose proof (Rle_0_sqr (len_r x - len_r y)) as Q. unfold Rsqr in Q. lra.
Qed.
