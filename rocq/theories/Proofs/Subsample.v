From Coq Require Import Reals Lra Lia.
From Flocq Require Import Core BinarySingleNaN.
From Verif.Lib Require Import Go F64 F64Facts ListFacts.
From Verif.Model Require Import Dictionary Subsample.
From Verif.Spec Require Import Words.
From Verif.Proofs Require Import Dictionary.
Local Open Scope R_scope.

Lemma fone_spec : f2r fone = 1 /\ is_fin fone = true.
Proof. destruct (f_of_Z_exact 1) as [H1 H2]; [lia|]. split; auto. Qed.

Lemma fin_of_nat f : (1 <= f)%nat -> (Z.of_nat f <= 2 ^ 53)%Z ->
  f2r (f_of_Z (Z.of_nat f)) = INR f /\ is_fin (f_of_Z (Z.of_nat f)) = true /\ 1 <= INR f.
Proof.
  intros H1 H2. destruct (f_of_Z_exact (Z.of_nat f)) as [E F]; [lia|].
  rewrite E, <- INR_IZR_INZ. split; auto. split; auto. apply (le_INR 1). exact H1.
Qed.

Lemma fsqrt_fin0 x : is_fin x = true -> 0 <= f2r x -> is_fin (fsqrt x) = true.
Proof.
  intros Hf Hx. destruct (Rle_lt_or_eq_dec _ _ Hx) as [H|H].
  - apply fsqrt_fin; auto.
  - destruct x as [s|s| |s m e He]; try discriminate; [reflexivity|].
    exfalso. assert (Hn : f2r (B754_finite s m e He) <> 0).
    { simpl. unfold F2R; simpl. intros E. apply Rmult_integral in E. destruct E as [E|E].
      - apply eq_IZR in E. destruct s; discriminate.
      - pose proof (bpow_gt_0 radix2 e). lra. }
    congruence.
Qed.

Lemma rnd_bound x (b : f64) : Rabs x <= f2r b -> Rabs (rnd x) < F64MAX.
Proof.
  intros H. rewrite <- rnd_abs. apply Rle_lt_trans with (f2r b).
  - apply rnd_le_f; auto.
  - apply Rle_lt_trans with (Rabs (f2r b)); [apply Rle_abs|apply f2r_bound].
Qed.

Definition sample_real (t : R) (f : nat) : R := Rmax 0 (rnd (1 - rnd (sqrt (rnd (t / INR f))))).

Lemma rnd_nonneg x : 0 <= x -> 0 <= rnd x.
Proof. intros. rewrite <- rnd_0. apply rnd_le; auto. Qed.

Lemma sample_of_real t f : is_fin t = true -> 0 <= f2r t -> (1 <= f)%nat -> (Z.of_nat f <= 2 ^ 53)%Z ->
  is_fin (sample_of t f) = true /\ f2r (sample_of t f) = sample_real (f2r t) f.
Proof.
  intros Ht Ht0 Hf1 Hf2. destruct (fin_of_nat f Hf1 Hf2) as (Ef & Ff & Hf).
  destruct fone_spec as (E1 & F1).
  assert (Hq0 : 0 <= f2r t / INR f).
  { apply Rmult_le_pos; auto. apply Rlt_le, Rinv_0_lt_compat; lra. }
  assert (Hqt : f2r t / INR f <= f2r t).
  { apply Rmult_le_reg_r with (INR f); [lra|]. unfold Rdiv. rewrite Rmult_assoc, Rinv_l by lra. 
    rewrite Rmult_1_r. rewrite <- (Rmult_1_r (f2r t)) at 1. apply Rmult_le_compat_l; lra. }
  destruct (fdiv_fin t (f_of_Z (Z.of_nat f)) Ht) as (Eq & Fq).
  { rewrite Ef. lra. }
  { rewrite Ef. apply (rnd_bound _ t). rewrite Rabs_pos_eq; auto. }
  rewrite Ef in Eq. set (q := fdiv t (f_of_Z (Z.of_nat f))) in *.
  assert (Hq : 0 <= f2r q) by (rewrite Eq; apply rnd_nonneg; auto).
  pose proof (fsqrt_fin0 q Fq Hq) as Fr. pose proof (fsqrt_real q) as Er. rewrite Eq in Er.
  set (r := fsqrt q) in *.
  assert (Hr : 0 <= f2r r) by (rewrite Er; apply rnd_nonneg, sqrt_pos).
  destruct (fsub_fin fone r F1 Fr) as (Ez & Fz).
  { rewrite E1. destruct (Rle_dec (f2r r) 1).
    - apply (rnd_bound _ fone). rewrite E1. rewrite Rabs_pos_eq; lra.
    - apply (rnd_bound _ r). rewrite Rabs_left1; lra. }
  rewrite E1, Er in Ez. unfold sample_of. fold q r. set (z := fsub fone r) in *.
  unfold sample_real. rewrite <- Ez.
  destruct (flt z fzero) eqn:El.
  - apply flt_spec in El. destruct El as (_ & _ & El). rewrite !fkey_fin in El by auto. simpl in El.
    split; [reflexivity|]. simpl. rewrite Rmax_left; auto. lra.
  - assert (Hz : ~ f2r z < 0).
    { intros Hz. assert (flt z fzero = true); [|congruence]. apply flt_spec.
      split; [apply fin_not_nan; auto|]. split; [reflexivity|]. rewrite !fkey_fin by auto. exact Hz. }
    split; [exact Fz|]. rewrite Rmax_right; auto. lra.
Qed.

Lemma sample_real_range t f : 0 <= sample_real t f <= 1.
Proof.
  unfold sample_real. split; [apply Rmax_l|]. apply Rmax_lub; [lra|].
  destruct fone_spec as (E1 & _). rewrite <- E1 at 2. apply rnd_le_f. rewrite E1.
  pose proof (rnd_nonneg _ (sqrt_pos (rnd (t / INR f)))). lra.
Qed.

Lemma sample_real_mono t f1 f2 : 0 <= t -> (1 <= f1)%nat -> (f1 <= f2)%nat -> sample_real t f1 <= sample_real t f2.
Proof.
  intros Ht H1 H2. unfold sample_real. apply Rle_max_compat_l. apply rnd_le.
  apply Rplus_le_compat_l, Ropp_le_contravar. apply rnd_le. apply sqrt_le_1_alt. apply rnd_le.
  apply Rmult_le_compat_l; auto. apply le_INR in H2. apply (le_INR 1) in H1. simpl in H1.
  apply Rinv_le_contravar; lra.
Qed.

(** Infinite threshold. *)
Lemma sample_of_inf f : (1 <= f)%nat -> (Z.of_nat f <= 2 ^ 53)%Z -> sample_of (finf false) f = fzero.
Proof.
  intros H1 H2. destruct (fin_of_nat f H1 H2) as (Ef & Ff & Hf).
  pose proof (f_of_Z_nonneg (Z.of_nat f) ltac:(lia)) as Hs.
  unfold sample_of, fdiv. destruct (f_of_Z (Z.of_nat f)) as [s|s| |s m e He] eqn:E; try discriminate.
  - simpl in Ef. lra.
  - simpl in Hs. subst s. reflexivity.
Qed.

Lemma sample_loop_spec ws d t : dict_repr ws d -> forall n i, (i + n = dict_len d)%nat ->
  exists l, sample_loop d t n i = Ret l /\ length l = n /\
    forall k f, (k < n)%nat -> dict_id_freq d (Z.of_nat (i + k)) = Ret f -> nth_error l k = Some (sample_of t f).
Proof.
  intros R. induction n as [|n IH]; intros i Hi.
  - exists []. repeat split; auto. intros; lia.
  - cbn [sample_loop]. rewrite (repr_len _ _ R) in Hi.
    destruct (nth_error (distinct ws) i) as [w|] eqn:E; [|apply nth_error_None in E; lia].
    rewrite (repr_id_freq _ _ R i w E). cbn [obind].
    destruct (IH (S i)) as (l & El & Hl & Hk); [rewrite (repr_len _ _ R); lia|]. rewrite El. cbn [obind].
    eexists. split; [reflexivity|]. split; [simpl; lia|].
    intros [|k] f Hk' Hf; cbn [nth_error].
    + rewrite Nat.add_0_r, (repr_id_freq _ _ R i w E) in Hf. congruence.
    + apply (Hk k f); [lia|]. rewrite <- Hf. do 2 f_equal. lia.
Qed.

Definition unit_draw (draw : f64) : Prop := fle fzero draw = true /\ flt draw fone = true.

Lemma subsample_lemma calls t :
  let d := fold_left dict_add calls dict_new in
  (Z.of_nat (length (concat calls)) <= 2 ^ 53)%Z ->
  exists samples, subsample_new d t = Ret samples /\ length samples = dict_len d /\
  forall i f, (i < dict_len d)%nat -> dict_id_freq d (Z.of_nat i) = Ret f ->
    (1 <= f)%nat /\ (Z.of_nat f <= 2 ^ 53)%Z /\ nth_error samples i = Some (sample_of t f).
Proof.
  intros d Hb.
  assert (R : dict_repr (concat calls) d).
  { unfold d. rewrite dict_adds_concat. apply dict_repr_of. }
  destruct (sample_loop_spec _ d t R (dict_len d) 0 eq_refl) as (l & El & Hl & Hk).
  exists l. split; [exact El|]. split; [exact Hl|]. intros i f Hi Hf.
  split; [|split; [|apply (Hk i f); auto]].
  - rewrite (repr_len _ _ R) in Hi. destruct (nth_error (distinct (concat calls)) i) as [w|] eqn:E; [|apply nth_error_None in E; lia].
    rewrite (repr_id_freq _ _ R i w E) in Hf. inversion Hf; subst f.
    apply nth_error_In in E. apply (proj1 (In_distinct _ _)) in E.
    now apply (count_occ_In gostring_eq_dec) in E.
  - rewrite (repr_len _ _ R) in Hi. destruct (nth_error (distinct (concat calls)) i) as [w|] eqn:E; [|apply nth_error_None in E; lia].
    rewrite (repr_id_freq _ _ R i w E) in Hf. inversion Hf; subst f.
    assert (occurrences w (concat calls) <= length (concat calls))%nat; [|lia].
    unfold occurrences. clear. induction (concat calls) as [|x l IH]; simpl; auto.
    destruct (gostring_eq_dec x w); lia.
Qed.

Lemma thr_cases t : fge t fzero = true -> (is_fin t = true /\ 0 <= f2r t) \/ t = finf false.
Proof.
  intros H. apply fge_spec in H. destruct H as (Hn & _ & Hk). 
  destruct t as [s|[]| |s m e He]; try discriminate.
  - left. simpl. split; [reflexivity|apply Rle_refl].
  - exfalso. simpl in Hk. pose proof F64MAX_pos. lra.
  - right; reflexivity.
  - left. split; auto. simpl in Hk |- *. lra.
Qed.

Lemma sample_fin_key t f : fge t fzero = true -> (1 <= f)%nat -> (Z.of_nat f <= 2 ^ 53)%Z ->
  is_fin (sample_of t f) = true /\
  f2r (sample_of t f) = if is_fin t then sample_real (f2r t) f else 0.
Proof.
  intros Ht H1 H2. destruct (thr_cases t Ht) as [[Hf H0]| ->].
  - rewrite Hf. apply sample_of_real; auto.
  - rewrite sample_of_inf by auto. simpl. auto.
Qed.

Lemma sample_range_lemma t f : fge t fzero = true -> (1 <= f)%nat -> (Z.of_nat f <= 2 ^ 53)%Z ->
  fle fzero (sample_of t f) = true /\ fle (sample_of t f) fone = true.
Proof.
  intros Ht H1 H2. destruct (sample_fin_key t f Ht H1 H2) as (F & E). destruct fone_spec as (E1 & F1).
  assert (Hr : 0 <= f2r (sample_of t f) <= 1).
  { rewrite E. destruct (is_fin t); [apply sample_real_range|lra]. }
  split; apply fle_spec; (split; [try reflexivity; apply fin_not_nan; auto|]);
  (split; [try reflexivity; apply fin_not_nan; auto|]); rewrite !fkey_fin by auto; rewrite ?E1; simpl; lra.
Qed.

Lemma sample_mono_lemma t f1 f2 : fge t fzero = true -> (1 <= f1)%nat -> (f1 <= f2)%nat -> (Z.of_nat f2 <= 2 ^ 53)%Z ->
  fle (sample_of t f1) (sample_of t f2) = true.
Proof.
  intros Ht H1 H12 H2.
  destruct (sample_fin_key t f1 Ht H1 ltac:(lia)) as (F & E).
  destruct (sample_fin_key t f2 Ht ltac:(lia) H2) as (F' & E').
  apply fle_spec. split; [apply fin_not_nan; auto|]. split; [apply fin_not_nan; auto|].
  rewrite !fkey_fin by auto. rewrite E, E'. destruct (thr_cases t Ht) as [[Hf H0]| ->].
  - rewrite Hf. apply sample_real_mono; auto.
  - simpl. lra.
Qed.

Lemma sample_zero_thr s f draw : (1 <= f)%nat -> (Z.of_nat f <= 2 ^ 53)%Z -> unit_draw draw ->
  fgt (sample_of (B754_zero s) f) draw = true.
Proof.
  intros H1 H2 (Hd0 & Hd1).
  assert (E : sample_of (B754_zero s) f = fone).
  { destruct (fin_of_nat f H1 H2) as (Ef & Ff & Hf).
    pose proof (f_of_Z_nonneg (Z.of_nat f) ltac:(lia)) as Hs.
    unfold sample_of, fdiv. destruct (f_of_Z (Z.of_nat f)) as [s0|s0| |s0 m e He] eqn:E; try discriminate.
    - simpl in Ef. lra.
    - destruct s, s0; reflexivity. }
  rewrite E. rewrite fgt_flt. exact Hd1.
Qed.

Lemma sample_big_thr t f draw : fge t (f_of_Z (Z.of_nat f)) = true -> (1 <= f)%nat -> (Z.of_nat f <= 2 ^ 53)%Z ->
  fle fzero draw = true -> fgt (sample_of t f) draw = false.
Proof.
  intros Ht H1 H2 Hd. destruct (fin_of_nat f H1 H2) as (Ef & Ff & Hf).
  apply fge_spec in Ht. destruct Ht as (Hn & _ & Hk). rewrite (fkey_fin (f_of_Z _)) in Hk by auto. rewrite Ef in Hk.
  assert (Ht0 : fge t fzero = true).
  { apply fge_spec. split; auto. split; [reflexivity|]. simpl. lra. }
  destruct (sample_fin_key t f Ht0 H1 H2) as (F & E).
  assert (Hz : f2r (sample_of t f) = 0).
  { rewrite E. destruct (thr_cases t Ht0) as [[Hft H0]| ->]; [|reflexivity].
    rewrite Hft. rewrite fkey_fin in Hk by auto. unfold sample_real.
    destruct fone_spec as (E1 & _).
    assert (A1 : 1 <= f2r t / INR f).
    { apply Rmult_le_reg_r with (INR f); [lra|]. unfold Rdiv. rewrite Rmult_assoc, Rinv_l by lra. lra. }
    assert (A2 : 1 <= rnd (f2r t / INR f)) by (rewrite <- E1; apply rnd_ge_f; rewrite E1; auto).
    assert (A3 : 1 <= sqrt (rnd (f2r t / INR f))) by (rewrite <- sqrt_1; apply sqrt_le_1_alt; auto).
    assert (A4 : 1 <= rnd (sqrt (rnd (f2r t / INR f)))) by (rewrite <- E1; apply rnd_ge_f; rewrite E1; auto).
    rewrite Rmax_left; auto. rewrite <- rnd_0. apply rnd_le. lra. }
  destruct (fgt (sample_of t f) draw) eqn:Eg; auto. exfalso.
  apply fgt_spec in Eg. destruct Eg as (_ & Hnd & Hgt). apply fle_spec in Hd. destruct Hd as (_ & _ & Hd).
  rewrite (fkey_fin (sample_of t f)) in Hgt by auto. rewrite Hz in Hgt. simpl in Hd. lra.
Qed.

Lemma fgt_nan_l y : fgt fnan y = false.
Proof. unfold fgt, fnan. rewrite Bcompare_nan_l. reflexivity. Qed.

Lemma sample_nan_of_sqrt q draw : isnan (fsqrt q) = true ->
  fgt (let z := fsub fone (fsqrt q) in if flt z fzero then fzero else z) draw = false.
Proof.
  intros H. destruct (fsqrt q) eqn:E; try discriminate.
  assert (Ez : fsub fone B754_nan = fnan) by (unfold fsub; destruct fone; reflexivity).
  rewrite Ez. replace (flt fnan fzero) with false by (unfold flt, fnan; rewrite Bcompare_nan_l; reflexivity).
  apply fgt_nan_l.
Qed.

Lemma sample_neg_thr t f draw : (1 <= f)%nat -> (Z.of_nat f <= 2 ^ 53)%Z ->
  t = fnan \/ t = finf true \/ (is_fin t = true /\ f2r t <= - bpow radix2 (-1000)) ->
  fgt (sample_of t f) draw = false.
Proof.
  intros H1 H2 Ht. destruct (fin_of_nat f H1 H2) as (Ef & Ff & Hf).
  pose proof (f_of_Z_nonneg (Z.of_nat f) ltac:(lia)) as Hs.
  unfold sample_of. apply sample_nan_of_sqrt.
  destruct Ht as [->|[->|[Hft Ht]]].
  - unfold fdiv, fnan. destruct (f_of_Z (Z.of_nat f)); reflexivity.
  - unfold fdiv, finf. destruct (f_of_Z (Z.of_nat f)) as [s0|s0| |s0 m e He] eqn:E; try discriminate.
    + simpl in Ef. lra.
    + simpl in Hs. subst s0. reflexivity.
  - set (q := fdiv t (f_of_Z (Z.of_nat f))).
    pose proof (bpow_gt_0 radix2 (-1000)) as Hp.
    assert (Hinv : 0 < / INR f <= 1).
    { split; [apply Rinv_0_lt_compat; lra|]. rewrite <- Rinv_1. apply Rinv_le_contravar; lra. }
    assert (Hq : f2r q = rnd (f2r t / INR f) /\ is_fin q = true).
    { unfold q. rewrite <- Ef at 1. apply fdiv_fin; auto.
      - rewrite Ef. lra.
      - rewrite Ef. apply (rnd_bound _ (fabs t)).
        unfold fabs. rewrite B2R_Babs.
        unfold Rdiv. rewrite Rabs_mult. rewrite (Rabs_pos_eq (/ INR f)) by lra.
        rewrite <- (Rmult_1_r (Rabs (f2r t))) at 2. apply Rmult_le_compat_l; [apply Rabs_pos|lra]. }
    destruct Hq as (Eq & Fq).
    assert (Hneg : f2r q < 0).
    { rewrite Eq. apply Rle_lt_trans with (- bpow radix2 (-1053)).
      - replace (- bpow radix2 (-1053)) with (rnd (- bpow radix2 (-1053))).
        + apply rnd_le.
          assert (INR f <= bpow radix2 53).
          { rewrite INR_IZR_INZ. change (bpow radix2 53) with (IZR (2 ^ 53)). apply IZR_le. exact H2. }
          assert (Hi : bpow radix2 (-53) <= / INR f).
          { change (-53)%Z with (- (53))%Z. rewrite bpow_opp. apply Rinv_le_contravar; lra. }
          replace (-1053)%Z with (-1000 + -53)%Z by reflexivity. rewrite bpow_plus.
          pose proof (bpow_gt_0 radix2 (-53)).
          unfold Rdiv. apply Rle_trans with (- bpow radix2 (-1000) * / INR f); [apply Rmult_le_compat_r; lra|].
          rewrite <- Ropp_mult_distr_l. apply Ropp_le_contravar. apply Rmult_le_compat_l; lra.
        + rewrite rnd_opp. f_equal. apply round_generic; [apply valid_rnd_N|].
          apply generic_format_bpow. unfold SpecFloat.fexp, SpecFloat.emin. lia.
      - pose proof (bpow_gt_0 radix2 (-1053)). lra. }
    fold q. destruct q as [s|s| |s m e He]; try discriminate.
    + simpl in Hneg. lra.
    + destruct s; [reflexivity|]. exfalso. simpl in Hneg.
      assert (0 <= F2R (Float radix2 (Z.pos m) e)) by (apply F2R_ge_0; simpl; lia).
      lra.
Qed.
