From Coq Require Import Reals Lra Lia.
From Flocq Require Import Core BinarySingleNaN.
From Verif.Lib Require Import Go F64 F64Facts ListFacts Tac.
From Verif.Model Require Import Matrix Cells Encode Cooc Glove.
From Verif.Spec Require Import Rows Training Cells.
From Verif.Proofs Require Import Matrix Word2vec Cells Glove AdaGrad Cosine.
Local Open Scope R_scope.

Notation fe := (SpecFloat.fexp 53 1024).
#[local] Instance fe_valid : Valid_exp fe := BinarySingleNaN.fexp_correct 53 1024 eq_refl.

(** The square root of the rounded square is no smaller than the number. *)
Lemma sqrt_square x q : generic_format radix2 fe x -> 1 <= x -> rnd (x * x) <= q -> x <= rnd (sqrt q).
Proof.
  intros Fx Hx Hq. set (e := mag radix2 x : Z).
  assert (Nx : x <> 0) by lra.
  assert (Be : bpow radix2 (e - 1) <= x < bpow radix2 e).
  { pose proof (bpow_mag_le radix2 x Nx) as L. pose proof (bpow_mag_gt radix2 x) as G. rewrite Rabs_pos_eq in L, G by lra. split; [exact L|exact G]. }
  assert (He : (1 <= e)%Z).
  { destruct (Z_lt_le_dec 0 e); [lia|]. exfalso. pose proof (bpow_le radix2 e 0 ltac:(lia)) as L. cbn in L. lra. }
  assert (Ce : cexp radix2 fe x = (e - 53)%Z).
  { unfold cexp. fold e. unfold SpecFloat.fexp, SpecFloat.emin. lia. }
  assert (Ul : ulp radix2 fe x = bpow radix2 (e - 53)) by (rewrite ulp_neq_0 by auto; rewrite Ce; reflexivity).
  assert (Gx : rnd x = x) by (apply round_generic; [apply valid_rnd_N|exact Fx]).
  destruct (Req_dec x (bpow radix2 (e - 1))) as [E|E].
  - assert (Ex : rnd (x * x) = x * x).
    { apply round_generic; [apply valid_rnd_N|]. rewrite E, <- bpow_plus. apply generic_format_bpow. unfold SpecFloat.fexp, SpecFloat.emin. lia. }
    apply Rle_trans with (rnd x); [lra|]. apply rnd_le. rewrite <- (sqrt_square x) by lra. apply sqrt_le_1_alt. lra.
  - apply round_N_ge_midp; [exact fe_valid|exact Fx|].
    assert (Pd : pred radix2 fe x = x - bpow radix2 (e - 53)).
    { rewrite pred_eq_pos by lra. unfold pred_pos. fold e. rewrite Req_bool_false by auto. rewrite Ul. reflexivity. }
    rewrite Pd. pose proof (id_p_ulp_le_bpow radix2 fe x e ltac:(lra) Fx (proj2 Be)) as UB. rewrite Ul in UB.
    set (B := bpow radix2 e) in *. assert (UE : bpow radix2 (e - 53) = B * uu).
    { unfold B, uu. rewrite <- bpow_plus. reflexivity. }
    assert (E1 : B = 2 * bpow radix2 (e - 1)).
    { unfold B. replace e with (1 + (e - 1))%Z at 1 by lia. rewrite bpow_plus. reflexivity. }
    rewrite UE in *. rewrite uu_val in *.
    assert (Bp : 0 < B) by apply bpow_gt_0.
    assert (R1 : x * x * (1 - uu) <= q).
    { eapply Rle_trans; [|exact Hq]. assert (H : bpow radix2 (-1022) <= Rabs (x * x)).
      { rewrite Rabs_pos_eq by nra. apply Rle_trans with 1; [|nra]. apply (bpow_le radix2 (-1022) 0). lia. }
      pose proof (rnd_rel _ (or_introl H)) as K. rewrite (Rabs_pos_eq (x * x)) in K by nra. apply Rabs_le_inv in K. nra. }
    rewrite uu_val in R1. apply Rsqr_incrst_0.
    + unfold Rsqr. rewrite sqrt_sqrt by nra. nra.
    + nra.
    + apply sqrt_pos.
Qed.

Lemma fdiv_inf t : is_fin t = true -> is_fin (fdiv t (finf false)) = true /\ f2r (fdiv t (finf false)) = 0.
Proof. destruct t; try discriminate; intros _; split; reflexivity. Qed.

(** The AdaGrad step of a component is NaN or a number in [-1, 1] with the sign of the gradient. *)
Lemma ada_quot t q : acc_ok q ->
  let s := fdiv t (fsqrt (fadd q (fmul t t))) in
  isnan s = true \/ (is_fin s = true /\ is_fin t = true /\ Rabs (f2r s) <= 1 /\ 0 <= f2r s * f2r t).
Proof.
  intros HQ. destruct (acc_step q t HQ) as (Ok & _). cbv zeta.
  destruct (is_fin t) eqn:Ft.
  2:{ left. destruct t as [s|s| |s m e H]; try discriminate.
      - replace (fadd q (fmul (B754_infinity s) (B754_infinity s))) with (if isnan q then B754_nan else finf false : f64).
        + destruct (isnan q); reflexivity.
        + destruct HQ as [HQ|HQ].
          * rewrite HQ. destruct q; try discriminate. destruct s; reflexivity.
          * destruct (ge_one q HQ) as [->|(Fq & _)]; [destruct s; reflexivity|]. destruct q; try discriminate; destruct s; reflexivity.
      - reflexivity. }
  destruct Ok as [Ok|Ok].
  { left. destruct (fadd q (fmul t t)); try discriminate. destruct t; reflexivity. }
  right. destruct (ge_one _ Ok) as [Eq|(Fq & Pq)].
  { rewrite Eq. change (fsqrt (finf false)) with (finf false). destruct (fdiv_inf t Ft) as (F & E). rewrite F, E. split; [auto|]. split; [auto|]. rewrite Rabs_R0. lra. }
  set (w := fsqrt (fadd q (fmul t t))).
  assert (Fw : is_fin w = true) by (apply fsqrt_fin; [exact Fq|lra]).
  assert (W1 : 1 <= f2r w).
  { unfold w. rewrite fsqrt_real. destruct one_val as (V1 & _). rewrite <- V1 at 1. apply rnd_ge_f. rewrite V1, <- sqrt_1. apply sqrt_le_1_alt. lra. }
  assert (WT : Rabs (f2r t) <= f2r w).
  { destruct (Rle_lt_dec (Rabs (f2r t)) 1) as [L|L]; [lra|].
    unfold w. rewrite fsqrt_real. apply sqrt_square; [apply generic_format_abs, generic_format_B2R|lra|].
    assert (FF : is_fin q = true /\ is_fin (fmul t t) = true).
    { destruct q as [s|[]| |s m e H], (fmul t t) as [s'|[]| |s' m' e' H']; try discriminate Fq; auto; try discriminate;
        destruct HQ as [HQ|HQ]; discriminate HQ. }
    destruct FF as (F1 & F2).
    assert (Q1 : 1 <= f2r q).
    { destruct HQ as [HQ|HQ]; [rewrite (fin_not_nan _ F1) in HQ; discriminate|]. destruct (ge_one _ HQ) as [->|(_ & K)]; [discriminate F1|exact K]. }
    assert (M : f2r (fmul t t) = rnd (f2r t * f2r t)).
    { pose proof (Bmult_correct 53 1024 _ _ mode_NE t t) as H. rewrite round_mode_NE in H. fold (rnd (f2r t * f2r t)) in H. fold (fmul t t) in H.
      destruct (Rlt_bool _ _) in H; [apply H|]. apply B2SF_inf in H || idtac. destruct (fmul t t); try discriminate F2; discriminate H. }
    assert (A : f2r (fadd q (fmul t t)) = rnd (f2r q + f2r (fmul t t))).
    { pose proof (Bplus_correct 53 1024 _ _ mode_NE q (fmul t t) F1 F2) as H. rewrite round_mode_NE in H. fold (rnd (f2r q + f2r (fmul t t))) in H. fold (fadd q (fmul t t)) in H.
      destruct (Rlt_bool _ _) in H; [apply H|]. destruct H as (H & _). destruct (fadd q (fmul t t)); try discriminate Fq; discriminate H. }
    rewrite A, <- Rabs_mult, (Rabs_pos_eq (f2r t * f2r t)) by nra. rewrite <- M. apply rnd_ge_f. lra. }
  assert (D1 : Rabs (f2r t / f2r w) <= 1).
  { rewrite Rabs_div_pos by lra. apply Rmult_le_reg_r with (f2r w); [lra|]. unfold Rdiv. rewrite Rmult_assoc, Rinv_l by lra. lra. }
  destruct one_val as (V1 & F1).
  assert (R1 : Rabs (rnd (f2r t / f2r w)) <= 1).
  { rewrite <- rnd_abs. rewrite <- V1. apply rnd_le_f. rewrite V1. exact D1. }
  destruct (fdiv_fin t w Ft ltac:(lra)) as (E & F).
  { apply (rnd_small _ (f_of_Z 1)). rewrite V1. exact D1. }
  rewrite E. split; [exact F|]. split; [reflexivity|]. split; [exact R1|].
  destruct (Rle_lt_dec 0 (f2r t)) as [P|P].
  - assert (0 <= rnd (f2r t / f2r w)).
    { apply Rle_trans with (rnd 0); [rewrite rnd_0; lra|]. apply rnd_le. apply Rmult_le_pos; [lra|]. left. apply Rinv_0_lt_compat. lra. }
    nra.
  - assert (rnd (f2r t / f2r w) <= 0).
    { apply Rle_trans with (rnd 0); [|rewrite rnd_0; lra]. apply rnd_le. unfold Rdiv. pose proof (Rinv_0_lt_compat (f2r w) ltac:(lra)). nra. }
    nra.
Qed.

Lemma isnan_fsub_r a s : isnan s = true -> isnan (fsub a s) = true.
Proof. destruct s; try discriminate. intros _. destruct a; reflexivity. Qed.
Lemma isnan_fsub_l a s : isnan a = true -> isnan (fsub a s) = true.
Proof. destruct a; try discriminate. reflexivity. Qed.

Definition within (n : Z) (a : f64) : Prop := isnan a = true \/ (is_fin a = true /\ Rabs (f2r a) <= IZR n).

Lemma ada_move n a t q : (0 <= n < 2 ^ 53)%Z -> acc_ok q -> within n a ->
  within (n + 1) (fsub a (fdiv t (fsqrt (fadd q (fmul t t))))).
Proof.
  intros Hn HQ [Ha|(Fa & Ra)]; [left; apply isnan_fsub_l; exact Ha|].
  destruct (ada_quot t q HQ) as [Hs|(Fs & _ & Rs & _)]; [left; apply isnan_fsub_r; exact Hs|].
  right. set (s := fdiv _ _) in *. destruct (f_of_Z_exact (n + 1)) as (V & F); [lia|].
  assert (K : Rabs (f2r a - f2r s) <= f2r (f_of_Z (n + 1))).
  { rewrite V, plus_IZR. apply Rabs_le. apply Rabs_le_inv in Ra. apply Rabs_le_inv in Rs. lra. }
  destruct (fsub_fin a s Fa Fs) as (E & F').
  { apply (rnd_small _ (f_of_Z (n + 1))). exact K. }
  rewrite E. split; [exact F'|]. rewrite <- rnd_abs, <- V. apply rnd_le_f. exact K.
Qed.

(** ** Histories *)
From Verif.Spec Require Import Touches.
Local Open Scope Z_scope.

Lemma touches_cons V it items q : touches V (it :: items) q = (count_occ Nat.eq_dec (item_rows V it) q + touches V items q)%nat.
Proof. reflexivity. Qed.

Definition accs_ok (dim : nat) (gs : list (list f64)) : Prop :=
  forall q j, (q < length gs)%nat -> (j < S dim)%nat -> acc_ok (at2 gs q j).
Definition cells_within (dim : nat) (rows : list (list f64)) (N : nat -> Z) : Prop :=
  forall q j, (q < length rows)%nat -> (j < dim)%nat -> within (N q) (at2 rows q j).

Definition b2z (b : bool) : Z := if b then 1 else 0.
Lemma b2z_range b : 0 <= b2z b <= 1. Proof. destruct b; cbn; lia. Qed.

Lemma ada_call lr dim rows gs r1 r2 f coef N : r1 <> r2 -> all_len (S dim) rows -> all_len (S dim) gs -> length gs = length rows ->
  (r1 < length rows)%nat -> (r2 < length rows)%nat -> accs_ok dim gs -> cells_within dim rows N ->
  0 <= N r1 < 2 ^ 53 -> 0 <= N r2 < 2 ^ 53 ->
  exists rows' gs', solver_train_one lr (Z.of_nat r1) (Z.of_nat r2) f coef (of_rows (S dim) rows, AdaGrad (of_rows (S dim) gs)) =
      Ret (of_rows (S dim) rows', AdaGrad (of_rows (S dim) gs')) /\
    all_len (S dim) rows' /\ length rows' = length rows /\ all_len (S dim) gs' /\ length gs' = length rows /\ accs_ok dim gs' /\
    cells_within dim rows' (fun q => N q + b2z (r1 =? q)%nat + b2z (r2 =? q)%nat).
Proof.
  intros Hne H Hg HL H1 H2 HA HC HN1 HN2. unfold solver_train_one. cbn [fst snd].
  rewrite (ada_lemma dim rows r1 r2 Hne H H1 H2 lr f coef gs Hg HL). cbn [obind].
  set (d := glove_diff _ _ _ _ _).
  pose proof (all_len_nth _ _ _ H H1) as E1. pose proof (all_len_nth _ _ _ H H2) as E2.
  pose proof (all_len_nth _ _ r1 Hg ltac:(lia)) as E3. pose proof (all_len_nth _ _ r2 Hg ltac:(lia)) as E4.
  destruct (upd2_ok (S dim) rows r1 r2 (ada_row d (nth r1 rows []) (nth r2 rows []) (nth r1 gs [])) (ada_row d (nth r2 rows []) (nth r1 rows []) (nth r2 gs [])) H) as (B1 & B2);
    [apply ada_row_length; auto|apply ada_row_length; auto|].
  destruct (upd2_ok (S dim) gs r1 r2 (ada_acc d (nth r1 gs []) (nth r2 rows [])) (ada_acc d (nth r2 gs []) (nth r1 rows [])) Hg) as (B3 & B4);
    [apply ada_acc_length; auto|apply ada_acc_length; auto|].
  do 2 eexists. split; [reflexivity|]. split; [exact B1|]. split; [exact B2|]. split; [exact B3|]. split; [lia|]. split.
  - intros q j Hq Hj. rewrite B4 in Hq. rewrite (upd2_at (S dim)) by (auto; lia).
    destruct (Nat.eqb_spec q r1) as [->|]; [|destruct (Nat.eqb_spec q r2) as [->|]].
    + rewrite (ada_acc_nth dim) by auto. destruct (j <? dim)%nat; apply acc_step; apply HA; auto.
    + rewrite (ada_acc_nth dim) by auto. destruct (j <? dim)%nat; apply acc_step; apply HA; auto.
    + apply HA; auto.
  - intros q j Hq Hj. rewrite B2 in Hq. rewrite (upd2_at (S dim)) by (auto; lia).
    assert (MV : 0 <= N q < 2 ^ 53 -> forall ra rb g, length ra = S dim -> length rb = S dim -> length g = S dim -> acc_ok (nth j g fzero) -> within (N q) (nth j ra fzero) ->
      within (N q + 1) (nth j (ada_row d ra rb g) fzero)).
    { intros HN ra rb g La Lb Lg Ha Hw. rewrite (ada_row_nth dim) by (auto; lia). rewrite (ada_acc_nth dim) by (auto; lia).
      destruct (Nat.ltb_spec j dim); [|lia]. apply ada_move; auto. }
    destruct (Nat.eqb_spec q r1) as [->|Nq1]; [|destruct (Nat.eqb_spec q r2) as [->|Nq2]].
    + rewrite Nat.eqb_refl. destruct (Nat.eqb_spec r2 r1); [lia|]. cbn [b2z]. rewrite Z.add_0_r.
      apply MV; auto; [apply HA; lia|apply HC; auto].
    + rewrite Nat.eqb_refl. destruct (Nat.eqb_spec r1 r2); [lia|]. cbn [b2z]. rewrite Z.add_0_r.
      apply MV; auto; [apply HA; lia|apply HC; auto].
    + destruct (Nat.eqb_spec r1 q); [lia|]. destruct (Nat.eqb_spec r2 q); [lia|]. cbn [b2z]. rewrite !Z.add_0_r. apply HC; auto.
Qed.

Lemma within_le n m a : n <= m -> within n a -> within m a.
Proof. intros Hnm [H|(F & R)]; [left; exact H|right]. split; [exact F|]. apply IZR_le in Hnm. eapply Rle_trans; eauto. Qed.

Lemma items_within lr dim V n : 0 <= n -> forall items rows gs k, Forall (item_in V) items ->
  all_len (S dim) rows -> length rows = (2 * V)%nat -> all_len (S dim) gs -> length gs = (2 * V)%nat -> accs_ok dim gs ->
  cells_within dim rows (fun q => n + Z.of_nat (k q)) -> (forall q, n + Z.of_nat (k q + touches V items q) <= 2 ^ 53) ->
  exists rows' gs', ofold (glove_train_item lr (Z.of_nat V)) items (of_rows (S dim) rows, AdaGrad (of_rows (S dim) gs)) =
      Ret (of_rows (S dim) rows', AdaGrad (of_rows (S dim) gs')) /\
    all_len (S dim) rows' /\ length rows' = (2 * V)%nat /\
    cells_within dim rows' (fun q => n + Z.of_nat (k q + touches V items q)).
Proof.
  intros Hn. induction items as [|it items IH]; intros rows gs k HI H HL Hg HLg HA HC HB.
  - exists rows, gs. split; [reflexivity|]. split; [auto|]. split; [auto|]. intros q j Hq Hj. specialize (HC q j Hq Hj).
    change (touches V [] q) with 0%nat. rewrite Nat.add_0_r. exact HC.
  - inversion HI as [|? ? (I1 & I2) HI']; subst. cbn [ofold]. unfold glove_train_item.
    set (a := Z.to_nat (it_l1 it)). set (b := Z.to_nat (it_l2 it)).
    replace (it_l2 it + Z.of_nat V) with (Z.of_nat (b + V)) by lia.
    replace (it_l1 it + Z.of_nat V) with (Z.of_nat (a + V)) by lia.
    replace (it_l1 it) with (Z.of_nat a) by lia. replace (it_l2 it) with (Z.of_nat b) by lia.
    assert (TE : forall q, Z.of_nat (touches V (it :: items) q) =
      b2z (a =? q)%nat + b2z (b + V =? q)%nat + b2z (a + V =? q)%nat + b2z (b =? q)%nat + Z.of_nat (touches V items q)).
    { intros q. unfold touches. cbn [map list_sum fold_right]. fold (touches V items q). rewrite Nat2Z.inj_add. f_equal.
      unfold item_rows. fold a b. cbn [count_occ].
      repeat match goal with |- context [Nat.eq_dec ?u ?w] => destruct (Nat.eq_dec u w); destruct (Nat.eqb_spec u w); try contradiction; try congruence end; cbn [b2z]; lia. }
    assert (NB : forall q, 0 <= b2z (a =? q)%nat /\ 0 <= b2z (b + V =? q)%nat /\ 0 <= b2z (a + V =? q)%nat /\ 0 <= b2z (b =? q)%nat /\
       b2z (a =? q)%nat <= 1 /\ b2z (b + V =? q)%nat <= 1).
    { intros q. pose proof (b2z_range (a =? q)%nat). pose proof (b2z_range (b + V =? q)%nat). pose proof (b2z_range (a + V =? q)%nat). pose proof (b2z_range (b =? q)%nat). lia. }
    assert (HB' : forall q, (q = a \/ q = b + V \/ q = a + V \/ q = b)%nat -> n + Z.of_nat (k q) < 2 ^ 53).
    { intros q Hq. specialize (HB q). rewrite Nat2Z.inj_add, TE in HB. pose proof (NB q) as NBq.
      assert (1 <= b2z (a =? q)%nat + b2z (b + V =? q)%nat + b2z (a + V =? q)%nat + b2z (b =? q)%nat).
      { destruct Hq as [Hq|[Hq|[Hq|Hq]]]; rewrite Hq in NBq |- *; rewrite Nat.eqb_refl in NBq |- *; change (b2z true) with 1 in *; lia. }
      lia. }
    destruct (ada_call lr dim rows gs a (b + V) (it_f it) (it_coef it) _ ltac:(lia) H Hg ltac:(lia) ltac:(lia) ltac:(lia) HA HC)
      as (rows1 & gs1 & E1 & A1 & L1 & Ag1 & Lg1 & HA1 & HC1); [specialize (HB' a); lia|specialize (HB' (b + V)%nat); lia|].
    rewrite E1. cbn [obind].
    assert (HB2 : forall q, (q = a + V \/ q = b)%nat -> n + Z.of_nat (k q) + b2z (a =? q)%nat + b2z (b + V =? q)%nat < 2 ^ 53).
    { intros q Hq. specialize (HB q). rewrite Nat2Z.inj_add, TE in HB. pose proof (NB q) as NBq.
      assert (1 <= b2z (a + V =? q)%nat + b2z (b =? q)%nat).
      { destruct Hq as [Hq|Hq]; rewrite Hq in NBq |- *; rewrite Nat.eqb_refl in NBq |- *; change (b2z true) with 1 in *; lia. }
      lia. }
    destruct (ada_call lr dim rows1 gs1 (a + V) b (it_f it) (it_coef it) _ ltac:(lia) A1 Ag1 ltac:(lia) ltac:(lia) ltac:(lia) HA1 HC1)
      as (rows2 & gs2 & E2 & A2 & L2 & Ag2 & Lg2 & HA2 & HC2); [pose proof (HB2 (a + V)%nat); pose proof (NB (a + V)%nat); cbv beta; lia|pose proof (HB2 b); pose proof (NB b); cbv beta; lia|].
    rewrite E2. cbn [obind].
    set (k2 := fun q => (k q + count_occ Nat.eq_dec (item_rows V it) q)%nat).
    assert (KE : forall q, (k2 q + touches V items q = k q + touches V (it :: items) q)%nat).
    { intros q. unfold k2. rewrite touches_cons. lia. }
    assert (KZ : forall q, Z.of_nat (k2 q) = Z.of_nat (k q) + b2z (a =? q)%nat + b2z (b + V =? q)%nat + b2z (a + V =? q)%nat + b2z (b =? q)%nat).
    { intros q. pose proof (TE q). pose proof (KE q). lia. }
    destruct (IH rows2 gs2 k2) as (rows3 & gs3 & E3 & A3 & L3 & HC3); auto; try lia.
    + intros q j Hq Hj. rewrite KZ. eapply within_le; [|apply (HC2 q j Hq Hj)]. cbv beta. lia.
    + intros q. rewrite KE. apply HB.
    + exists rows3, gs3. split; [exact E3|]. split; [exact A3|]. split; [exact L3|]. intros q j Hq Hj. cbv beta. rewrite <- KE. apply (HC3 q j Hq Hj).
Qed.

Lemma touches_app V l1 l2 q : touches V (l1 ++ l2) q = (touches V l1 q + touches V l2 q)%nat.
Proof. unfold touches. rewrite map_app, list_sum_app. reflexivity. Qed.
Lemma touches_perm V l1 l2 q : Permutation.Permutation l1 l2 -> touches V l1 q = touches V l2 q.
Proof.
  intros P. induction P; rewrite ?touches_cons; try lia.
Qed.
Lemma touches_passes V items q : forall ps, Forall (fun p => Permutation.Permutation p items) ps ->
  touches V (concat ps) q = (length ps * touches V items q)%nat.
Proof.
  induction 1 as [|p ps P _ IH]; [reflexivity|]. cbn [concat length]. rewrite touches_app, IH, (touches_perm V _ _ q P). lia.
Qed.
