(** The average path length and the entropy. *)
From Coq Require Import Lia Lra Permutation Reals.
From Verif.Lib Require Import Go F64 ListFacts Tac.
From Verif.Model Require Import Dictionary Huffman.
From Verif.Spec Require Import Words Tree Likelihood Entropy.
From Verif.Proofs Require Import Likelihood Kraft.
Local Open Scope R_scope.

Lemma ln2_pos : 0 < ln 2.
Proof. rewrite <- ln_1. apply ln_increasing; lra. Qed.
Lemma ln_le_sub1 y : 0 < y -> ln y <= y - 1.
Proof. intros H. pose proof (exp_ineq1_le (ln y)) as E. rewrite exp_ln in E by exact H. lra. Qed.

Lemma rsum_le {A} (f g : A -> R) l : (forall x, In x l -> f x <= g x) -> rsum (map f l) <= rsum (map g l).
Proof. unfold rsum. induction l as [|x l IH]; intros H; cbn [map fold_right]; [lra|]. pose proof (H x (or_introl eq_refl)). specialize (IH (fun y Hy => H y (or_intror Hy))). lra. Qed.
Lemma rsum_lt {A} (f g : A -> R) l : l <> [] -> (forall x, In x l -> f x < g x) -> rsum (map f l) < rsum (map g l).
Proof.
  destruct l as [|x l]; intros Hn H; [congruence|]. unfold rsum. cbn [map fold_right]. pose proof (H x (or_introl eq_refl)).
  pose proof (rsum_le f g l (fun y Hy => Rlt_le _ _ (H y (or_intror Hy)))) as HL. unfold rsum in HL. lra.
Qed.
Lemma rsum_plus {A} (f g : A -> R) l : rsum (map (fun x => f x + g x) l) = rsum (map f l) + rsum (map g l).
Proof. unfold rsum. induction l as [|x l IH]; cbn [map fold_right]; [lra|]. rewrite IH. lra. Qed.
Lemma rsum_INR {A} (f : A -> nat) l : rsum (map (fun x => INR (f x)) l) = INR (list_sum (map f l)).
Proof. unfold rsum, list_sum. induction l as [|x l IH]; cbn [map fold_right]; [reflexivity|]. rewrite IH, plus_INR. reflexivity. Qed.

Lemma rsum_opp {A} (f : A -> R) l : rsum (map (fun x => - f x) l) = - rsum (map f l).
Proof. unfold rsum. induction l as [|x l IH]; cbn [map fold_right]; [lra|]. rewrite IH. lra. Qed.

Lemma log2_pow2 n : log2 (INR (2 ^ n)) = INR n.
Proof. unfold log2. rewrite pow_INR. cbn [INR]. replace (1 + 1) with 2 by lra. rewrite ln_pow by lra. pose proof ln2_pos. field. lra. Qed.
Lemma log2_lt x y : 0 < x -> x < y -> log2 x < log2 y.
Proof. intros Hx H. unfold log2. apply Rmult_lt_compat_r; [apply Rinv_0_lt_compat, ln2_pos|]. apply ln_increasing; assumption. Qed.
Lemma log2_le x y : 0 < x -> x <= y -> log2 x <= log2 y.
Proof. intros Hx [H|<-]; [left; apply log2_lt; assumption|right; reflexivity]. Qed.

Section Gibbs.
Variables (ids : list nat) (f e : nat -> nat).
Let N := list_sum (map f ids).
Hypothesis Hf : forall i, In i ids -> (1 <= f i)%nat.

Lemma total_ge i : In i ids -> (f i <= N)%nat.
Proof. unfold N. clear N Hf. induction ids as [|a l IH]; [intros []|]. unfold list_sum in *. cbn [map fold_right]. intros [<-|H]; [lia|]. specialize (IH H). lia. Qed.

Lemma information_map : information (map f ids) = rsum (map (fun i => INR (f i) * log2 (INR N / INR (f i))) ids).
Proof. unfold information. rewrite map_map. reflexivity. Qed.

(** The noiseless coding theorem, lower bound. *)
Lemma coding_lower : rsum (map (fun i => (1 / 2) ^ e i) ids) <= 1 -> information (map f ids) <= INR (list_sum (map (fun i => f i * e i)%nat ids)).
Proof.
  intros HK. rewrite information_map, <- rsum_INR. pose proof ln2_pos as L2.
  assert (H : rsum (map (fun i => INR (f i) * log2 (INR N / INR (f i)) + (- INR (f i * e i))) ids) <=
              rsum (map (fun i => / ln 2 * (INR N * (1 / 2) ^ e i + - INR (f i))) ids)).
  { apply rsum_le. intros i Hi. pose proof (Hf i Hi) as F1. pose proof (total_ge i Hi) as F2.
    assert (Pf : 0 < INR (f i)) by (apply lt_0_INR; lia). assert (PN : 0 < INR N) by (apply lt_0_INR; lia).
    assert (Pp : 0 < (1 / 2) ^ e i) by (apply pow_lt; lra).
    assert (Py : 0 < INR N / INR (f i)) by (apply Rdiv_lt_0_compat; assumption).
    pose proof (ln_le_sub1 ((1 / 2) ^ e i * (INR N / INR (f i))) (Rmult_lt_0_compat _ _ Pp Py)) as G. rewrite ln_mult in G by assumption.
    rewrite ln_pow in G by lra. replace (ln (1 / 2)) with (- ln 2) in G by (replace (1 / 2) with (/ 2) by lra; rewrite ln_Rinv by lra; reflexivity).
    unfold log2. rewrite mult_INR. set (y := ln (INR N / INR (f i))) in *.
    assert (G' : INR (f i) * y - INR (f i) * INR (e i) * ln 2 <= INR N * (1 / 2) ^ e i - INR (f i)).
    { replace (INR N * (1 / 2) ^ e i - INR (f i)) with (INR (f i) * ((1 / 2) ^ e i * (INR N / INR (f i)) - 1)) by (field; lra).
      replace (INR (f i) * y - INR (f i) * INR (e i) * ln 2) with (INR (f i) * (INR (e i) * - ln 2 + y)) by ring. apply Rmult_le_compat_l; lra. }
    apply Rmult_le_reg_l with (ln 2); [exact L2|]. replace (ln 2 * (INR (f i) * (y / ln 2) + - (INR (f i) * INR (e i)))) with (INR (f i) * y - INR (f i) * INR (e i) * ln 2) by (field; lra).
    replace (ln 2 * (/ ln 2 * (INR N * (1 / 2) ^ e i + - INR (f i)))) with (INR N * (1 / 2) ^ e i - INR (f i)) by (field; lra). exact G'. }
  rewrite rsum_plus, rsum_scale, rsum_plus, rsum_scale in H.
  assert (E1 : rsum (map (fun i => - INR (f i * e i)) ids) = - rsum (map (fun i => INR (f i * e i)) ids)).
  { apply rsum_opp. }
  assert (E2 : rsum (map (fun i => - INR (f i)) ids) = - INR N).
  { unfold N. rewrite <- rsum_INR. apply rsum_opp. }
  rewrite E1, E2 in H. pose proof (pos_INR N) as PN.
  assert (/ ln 2 * (INR N * rsum (map (fun i => (1 / 2) ^ e i) ids) + - INR N) <= 0).
  { assert (0 < / ln 2) by (apply Rinv_0_lt_compat, L2). assert (INR N * rsum (map (fun i => (1 / 2) ^ e i) ids) <= INR N * 1) by (apply Rmult_le_compat_l; assumption).
    rewrite <- (Rmult_0_r (/ ln 2)). apply Rmult_le_compat_l; lra. }
  lra.
Qed.

(** Upper bound: some tree costs less than one bit more per word. *)
Definition code_len (i : nat) : nat := Nat.log2_up ((N + f i - 1) / f i).

Lemma code_len_spec i : In i ids -> (N <= f i * 2 ^ code_len i)%nat /\ INR (code_len i) < log2 (INR N / INR (f i)) + 1.
Proof.
  intros Hi. pose proof (Hf i Hi) as F1. pose proof (total_ge i Hi) as F2. unfold code_len. set (c := ((N + f i - 1) / f i)%nat).
  assert (C1 : (N <= f i * c)%nat).
  { unfold c. pose proof (Nat.div_mod (N + f i - 1) (f i) ltac:(lia)). pose proof (Nat.mod_upper_bound (N + f i - 1) (f i) ltac:(lia)). lia. }
  assert (C2 : (f i * (c - 1) < N)%nat).
  { unfold c. pose proof (Nat.div_mod (N + f i - 1) (f i) ltac:(lia)). assert (1 <= (N + f i - 1) / f i)%nat by (apply Nat.div_le_lower_bound; lia). nia. }
  assert (Pf : 0 < INR (f i)) by (apply lt_0_INR; lia). assert (PN : 0 < INR N) by (apply lt_0_INR; lia).
  destruct (Nat.le_gt_cases c 1) as [Hc|Hc].
  - assert (c = 1)%nat as -> by nia. cbn. split; [lia|].
    assert (1 <= INR N / INR (f i)). { apply Rmult_le_reg_r with (INR (f i)); [exact Pf|]. unfold Rdiv. rewrite Rmult_assoc, Rinv_l, Rmult_1_l, Rmult_1_r by lra. apply le_INR, F2. }
    assert (log2 1 <= log2 (INR N / INR (f i))) by (apply log2_le; lra). assert (E0 : log2 1 = 0) by (unfold log2; rewrite ln_1; unfold Rdiv; lra). lra.
  - destruct (Nat.log2_up_spec c Hc) as (S1 & S2). split; [nia|].
    pose proof (Nat.log2_up_pos c Hc) as Sp. set (l := Nat.log2_up c) in *. destruct l as [|k]; [lia|]. cbn [Nat.pred] in S1. rewrite S_INR. apply Rplus_lt_compat_r.
    rewrite <- log2_pow2. apply log2_lt; [apply lt_0_INR; pose proof (pow_pos k); lia|].
    apply Rmult_lt_reg_r with (INR (f i)); [exact Pf|]. unfold Rdiv. rewrite Rmult_assoc, Rinv_l, Rmult_1_r, <- mult_INR by lra. apply lt_INR. nia.
Qed.

Lemma coding_upper_ : ids <> [] -> exists t, Permutation (bleaves t) ids /\ INR (bcost f 0 t) < information (map f ids) + INR N.
Proof.
  intros Hn. set (L := list_max (map code_len ids)).
  assert (HL : forall i, In i ids -> (code_len i <= L)%nat).
  { intros i Hi. pose proof (proj1 (list_max_le (map code_len ids) L) (Nat.le_refl _)) as HF. rewrite Forall_forall in HF. apply HF, in_map, Hi. }
  assert (HN : (1 <= N)%nat).
  { assert (exists i, In i ids) as (i & Hi) by (clear - Hn; destruct ids as [|i l]; [congruence|exists i; left; reflexivity]). pose proof (Hf i Hi). pose proof (total_ge i Hi). lia. }
  set (l := map (fun i => (i, (L - code_len i)%nat)) ids).
  assert (HW : (wsum l <= 2 ^ L)%nat).
  { apply (Nat.mul_le_mono_pos_l _ _ N); [lia|]. unfold wsum, l. rewrite map_map. cbn [snd].
    assert (G : forall l1, incl l1 ids -> (N * list_sum (map (fun i => 2 ^ (L - code_len i)) l1) <= list_sum (map f l1) * 2 ^ L)%nat).
    { induction l1 as [|i l1 IH]; intros HI; [cbn; lia|]. unfold list_sum in *. cbn [map fold_right]. specialize (IH (fun x Hx => HI x (or_intror Hx))).
      assert (Hi : In i ids) by (apply HI; left; reflexivity). destruct (code_len_spec i Hi) as (S1 & _). specialize (HL i Hi).
      assert (EP : (2 ^ L = 2 ^ code_len i * 2 ^ (L - code_len i))%nat) by (rewrite <- Nat.pow_add_r; f_equal; lia).
      set (a := (2 ^ (L - code_len i))%nat) in *. set (b := (2 ^ code_len i)%nat) in *.
      assert (N * a <= f i * (b * a))%nat by nia. rewrite <- EP in H. lia. }
    specialize (G ids (incl_refl _)). fold N in G. lia. }
  assert (Hl : l <> []) by (unfold l; intros HM; apply map_eq_nil in HM; contradiction).
  destruct (kraft_tree L l Hl HW) as (t & HP & HC). exists t. split.
  - rewrite HP. unfold l. rewrite map_map. cbn [fst]. rewrite map_id. reflexivity.
  - specialize (HC f 0%nat). unfold l in HC. rewrite map_map in HC. cbn [fst snd Nat.add] in HC.
    apply Rle_lt_trans with (INR (list_sum (map (fun i => f i * code_len i)%nat ids))).
    + apply le_INR. etransitivity; [exact HC|]. apply Nat.eq_le_incl. f_equal. apply map_ext_in. intros i Hi. specialize (HL i Hi). f_equal. lia.
    + rewrite <- rsum_INR, information_map. unfold N at 2. rewrite <- rsum_INR, <- rsum_plus. apply rsum_lt; [exact Hn|]. intros i Hi.
      destruct (code_len_spec i Hi) as (_ & S2). rewrite mult_INR. assert (Pf : 0 < INR (f i)) by (apply lt_0_INR; pose proof (Hf i Hi); lia).
      replace (INR (f i) * log2 (INR N / INR (f i)) + INR (f i)) with (INR (f i) * (log2 (INR N / INR (f i)) + 1)) by ring. apply Rmult_lt_compat_l; assumption.
Qed.

(** A balanced tree. *)
Lemma balanced_ : ids <> [] -> exists t, Permutation (bleaves t) ids /\ (bcost f 0 t <= N * Nat.log2_up (length ids))%nat.
Proof.
  intros Hn. set (L := Nat.log2_up (length ids)). set (l := map (fun i => (i, 0%nat)) ids).
  assert (HW : (wsum l <= 2 ^ L)%nat).
  { unfold wsum, l. rewrite map_map. cbn [snd Nat.pow]. assert (E : list_sum (map (fun _ : nat => 1%nat) ids) = length ids) by (clear; unfold list_sum; induction ids; cbn; lia).
    rewrite E. destruct (Nat.le_gt_cases (length ids) 1) as [H|H]; [pose proof (pow_pos L); lia|]. apply (Nat.log2_up_spec _ H). }
  assert (Hl : l <> []) by (unfold l; intros HM; apply map_eq_nil in HM; contradiction).
  destruct (kraft_tree L l Hl HW) as (t & HP & HC). exists t. split.
  - rewrite HP. unfold l. rewrite map_map. cbn [fst]. rewrite map_id. reflexivity.
  - specialize (HC f 0%nat). unfold l in HC. rewrite map_map in HC. cbn [fst snd Nat.add] in HC. etransitivity; [exact HC|]. rewrite Nat.sub_0_r. unfold N. clearbody L. clear.
    unfold list_sum. induction ids as [|i l IH]; cbn [map fold_right]; [lia|]. rewrite Nat.mul_add_distr_r. lia.
Qed.
End Gibbs.

Lemma coding_upper ids f : (forall i, In i ids -> (1 <= f i)%nat) -> ids <> [] ->
  exists t, Permutation (bleaves t) ids /\ INR (bcost f 0 t) < information (map f ids) + INR (list_sum (map f ids)).
Proof. exact (coding_upper_ ids f (fun _ => 0%nat)). Qed.
Lemma balanced ids f : (forall i, In i ids -> (1 <= f i)%nat) -> ids <> [] ->
  exists t, Permutation (bleaves t) ids /\ (bcost f 0 t <= list_sum (map f ids) * Nat.log2_up (length ids))%nat.
Proof. exact (balanced_ ids f (fun _ => 0%nat)). Qed.
