(** * C93: what one step of word2vec training computes

    [fexp] is math.Exp, assumed accurate to 2^-40 on [-7, 7] (Spec/Logistic.v). *)
From Coq Require Import Lia Reals Lra.
From Flocq Require Import Core.
From Verif.Lib Require Import Go F64 F64Facts.
From Verif.Spec Require Import Rows Training Cosine Logistic.
From Verif.Model Require Import Matrix Sigmoid Huffman Word2vec.
From Verif.Proofs Require Word2vec Sigmoid Logistic Gradient.
Local Open Scope R_scope.

(** C93. The table lookup is within 0.0031 of the logistic function, for every score in (-6, 6) for which
    it returns at all (C29); and 0 and 1 are as close outside. *)
Theorem C93_table_accuracy : forall fexp x s, exp_accurate fexp -> is_fin x = true ->
  (f2r x <= -6 -> logistic (f2r x) <= 31 / 10000) /\ (6 <= f2r x -> 1 - 31 / 10000 <= logistic (f2r x)) /\
  (-6 < f2r x < 6 -> sigmoid (sig_table fexp) x = Ret s ->
    is_fin s = true /\ 0 <= f2r s <= 1 /\ Rabs (f2r s - logistic (f2r x)) <= 31 / 10000).
Proof.
  intros fexp x s HA Fx. split; [apply Logistic.logistic_m6|]. split.
  - intros H. pose proof (Logistic.logistic_m6 (- f2r x) ltac:(lra)) as L. rewrite Logistic.logistic_opp in L. lra.
  - intros Hx H. apply (Logistic.predict_close fexp x s HA Fx). unfold predict.
    destruct (fle x (f_of_Z (-6))) eqn:E1.
    { apply fle_spec in E1. destruct (f_of_Z_exact (-6)) as (V & F); [lia|]. rewrite !fkey_fin, V in E1 by auto. lra. }
    destruct (fge x (f_of_Z 6)) eqn:E2; [|exact H].
    apply fge_spec in E2. destruct (f_of_Z_exact 6) as (V & F); [lia|]. rewrite !fkey_fin, V in E2 by auto. lra.
Qed.
Print Assumptions C93_table_accuracy.

(** C93. The log-likelihood of a true neighbour is ln(logistic x), that of a noise word
    ln(1 - logistic x); the derivative in the score x is label - logistic x. *)
Theorem C93_derivative : forall x,
  derivable_pt_lim (fun t => ln (logistic t)) x (1 - logistic x) /\
  derivable_pt_lim (fun t => ln (1 - logistic t)) x (0 - logistic x).
Proof. intros x. split; [apply Logistic.ln_logistic_deriv|apply Logistic.ln_1_logistic_deriv]. Qed.
Print Assumptions C93_derivative.

(** C93. Negative sampling, one sample (a true neighbour or a noise word, C33): the row of the sample
    moves along the context vector, and the change to the word's own vector along that row, by the
    learning rate times the derivative above, up to 0.0032 times the rate. *)
Theorem C93_negative_sampling : forall fexp lr ctx label r rows tmp dim m' tmp', exp_accurate fexp ->
  label = 0%Z \/ label = 1%Z -> is_fin lr = true -> 0 <= f2r lr ->
  all_len dim rows -> (r < length rows)%nat -> length ctx = dim -> length tmp = dim ->
  let row := nth r rows [] in moderate row ctx ->
  ns_step (sigmoid (sig_table fexp)) lr ctx label (Z.of_nat r) (of_rows dim rows) tmp = Ret (m', tmp') ->
  exists g, gradient_factor label (dot_r row ctx) (f2r lr) g /\
    m' = of_rows dim (upd rows r (axpy row g ctx)) /\ tmp' = axpy tmp g row.
Proof. intros fexp lr ctx label r rows tmp dim m' tmp' HA Hl Fl Rl AL Hr Hc Ht row HM. exact (Gradient.ns_step_gradient fexp lr ctx label r rows tmp dim m' tmp' HA Hl Fl Rl AL Hr Hc Ht HM). Qed.
Print Assumptions C93_negative_sampling.

(** C93. Hierarchical softmax, one inner node p with the next node q of the path (C34): the same with
    label 1 - code of q; nodes whose score is outside about (-6, 6) are left alone. *)
Theorem C93_hierarchical_softmax : forall fexp lr ctx p q h tmp h' tmp', exp_accurate fexp ->
  is_fin lr = true -> 0 <= f2r lr -> (hn_code (hget h q) = 0 \/ hn_code (hget h q) = 1)%nat ->
  length tmp = length ctx -> let vec := hn_vec (hget h p) in moderate ctx vec ->
  hs_loop (sigmoid (sig_table fexp)) lr ctx [p; q] h tmp = Ret (h', tmp') ->
  (h' = h /\ tmp' = tmp /\ 59 / 10 <= Rabs (dot_r ctx vec)) \/
  exists g, gradient_factor (1 - Z.of_nat (hn_code (hget h q))) (dot_r ctx vec) (f2r lr) g /\
    h' = set_vec h p (axpy vec g ctx) /\ tmp' = axpy tmp g vec.
Proof. intros fexp lr ctx p q h tmp h' tmp' HA Fl Rl HC Ht vec HM. exact (Gradient.hs_step_gradient fexp lr ctx p q h tmp h' tmp' HA Fl Rl HC Ht HM). Qed.
Print Assumptions C93_hierarchical_softmax.

(** C93. Component by component: a true neighbour is pulled towards the context vector, a noise word
    pushed away from it, by at most three times rate * |component|. *)
Theorem C93_components : forall row ctx label x lr g i a c, gradient_factor label x lr g ->
  label = 0%Z \/ label = 1%Z -> lr <= bpow radix2 400 ->
  nth_error row i = Some a -> nth_error ctx i = Some c -> ordinary a -> ordinary c ->
  exists b, nth_error (axpy row g ctx) i = Some b /\ is_fin b = true /\
    (label = 1%Z -> 0 <= (f2r b - f2r a) * f2r c) /\ (label = 0%Z -> (f2r b - f2r a) * f2r c <= 0) /\
    Rabs (f2r b - f2r a) <= 3 * (lr * Rabs (f2r c)) + bpow radix2 (-1000).
Proof.
  intros row ctx label x lr g i a c (Fg & G1 & G0 & _) Hl HL Ea Ec Oa Oc.
  assert (Ag : Rabs (f2r g) <= lr).
  { destruct Hl as [H|H]; [specialize (G0 H)|specialize (G1 H)]; apply Rabs_le; lra. }
  destruct (Gradient.component_moves a c g lr Oa Oc Fg Ag HL) as (Fb & P & N & B).
  exists (fadd a (fmul g c)). split.
  - unfold axpy, zipw. rewrite nth_error_map. replace (nth_error (combine row ctx) i) with (Some (a, c)); [reflexivity|].
    clear - Ea Ec. revert row ctx Ea Ec. induction i as [|i IH]; intros [|y row] [|z ctx] Ea Ec; try discriminate; cbn in *; [congruence|]. apply IH; auto.
  - split; [exact Fb|]. split; [|split; [|exact B]]; intros H.
    + apply P. apply (G1 H).
    + apply N. apply (G0 H).
Qed.
Print Assumptions C93_components.

(** A concrete case: one-dimensional vectors 1 and 1, a rate of 1 and a table made with an exact math.Exp
    rounded to float64 exist; the step is defined and the hypotheses hold. *)
Definition rounded_exp (fexp : f64 -> f64) : Prop :=
  forall x, is_fin x = true -> Rabs (f2r x) <= 7 -> is_fin (fexp x) = true /\ f2r (fexp x) = rnd (exp (f2r x)).
Lemma rounded_exp_accurate fexp : rounded_exp fexp -> exp_accurate fexp.
Proof.
  intros H x Fx Rx. destruct (H x Fx Rx) as (F & E). split; [exact F|]. rewrite E. pose proof (Logistic.exp_bounds _ Rx) as B.
  assert (B1 : bpow radix2 (-1022) <= Rabs (exp (f2r x))).
  { rewrite Rabs_pos_eq by lra. apply Rle_trans with (bpow radix2 (-12)); [apply bpow_le; lia|]. change (bpow radix2 (-12)) with (/ 4096). lra. }
  pose proof (Cosine.rnd_rel _ (or_introl B1)) as ER. rewrite (Rabs_pos_eq (exp (f2r x))) in ER by lra.
  eapply Rle_trans; [exact ER|]. rewrite Cosine.uu_val, Logistic.pow40. assert (0 < exp (f2r x)) by lra. nra.
Qed.

(** There is such an exponential. *)
Definition nearest_exp (x : f64) : f64 :=
  let y := exp (f2r x) in
  BinarySingleNaN.binary_normalize 53 1024 _ _ BinarySingleNaN.mode_NE
    (ZnearestE (scaled_mantissa radix2 (SpecFloat.fexp 53 1024) y)) (cexp radix2 (SpecFloat.fexp 53 1024) y) false.
Example C93_exp : exp_accurate nearest_exp.
Proof.
  apply rounded_exp_accurate. intros x Fx Rx. unfold nearest_exp. set (y := exp (f2r x)).
  pose proof (Logistic.exp_bounds _ Rx) as B. fold y in B.
  assert (E : F2R (Float radix2 (ZnearestE (scaled_mantissa radix2 (SpecFloat.fexp 53 1024) y)) (cexp radix2 (SpecFloat.fexp 53 1024) y)) = rnd y) by reflexivity.
  match goal with |- context [BinarySingleNaN.binary_normalize 53 1024 ?p ?q ?m ?a ?b ?c] => pose proof (BinarySingleNaN.binary_normalize_correct 53 1024 p q m a b c) as H end.
  cbv zeta in H. rewrite E in H. rewrite round_mode_NE in H. change (round radix2 (SpecFloat.fexp 53 1024) ZnearestE (rnd y)) with (rnd (rnd y)) in H.
  assert (I : rnd (rnd y) = rnd y) by (apply round_generic; [apply valid_rnd_N|]; apply generic_format_round; [apply (BinarySingleNaN.fexp_correct 53 1024)|apply valid_rnd_N]; reflexivity).
  rewrite I in H. rewrite Rlt_bool_MAX_true in H.
  - destruct H as (H1 & H2 & _). split; [exact H2|exact H1].
  - destruct (f_of_Z_exact 3000) as (V & F); [lia|]. apply (rnd_small _ (f_of_Z 3000)). rewrite V, Rabs_pos_eq; lra.
Qed.

Example C93_case : let one := f_of_Z 1 in
  moderate [one] [one] /\ all_len 1 [[one]] /\ is_fin one = true /\
  forall fexp, exists m' tmp', ns_step (sigmoid (sig_table fexp)) one [one] 1 (Z.of_nat 0) (of_rows 1 [[one]]) [one] = Ret (m', tmp').
Proof.
  intros one. destruct (f_of_Z_exact 1) as (E1 & F1); [lia|]. assert (Oo : ordinary one).
  { split; [exact F1|]. right. unfold one. rewrite E1, Rabs_R1. split; [apply (bpow_le radix2 (-400) 0); lia|apply (bpow_le radix2 0 400); lia]. }
  split; [|split; [|split; [exact F1|]]].
  - split; [reflexivity|]. split; [cbn; lia|]. split; [auto|]. split; [auto|]. unfold len_r, dot_r. cbn [combine map fold_right fst snd].
    unfold one. rewrite E1. rewrite sqrt_sqrt by lra. lra.
  - constructor; [reflexivity|constructor].
  - intros fexp. rewrite (Word2vec.ns_step_rows _ one [one] 1 0 [[one]] [one] 1%nat) by (first [constructor; [reflexivity|constructor] | auto]).
    unfold ns_row_step. cbn [nth]. unfold predict.
    assert (Ed : fle (dot [one] [one]) (f_of_Z (-6)) = false /\ fge (dot [one] [one]) (f_of_Z 6) = false /\
      fgt (dot [one] [one]) (f_of_Z (-6)) = true /\ flt (dot [one] [one]) (f_of_Z 6) = true /\ fshow (dot [one] [one]) = Some (2 ^ 52, -52)%Z) by (vm_compute; auto).
    destruct Ed as (-> & -> & G1 & G2 & G3). destruct (fshow_spec _ _ _ G3) as (_ & V).
    destruct (proj2 (Sigmoid.sigmoid_index_lemma fexp _ G1 G2)) as (v & -> & _); [|cbn [obind]; eauto].
    unfold Sigmoid.just_below_6. intros (_ & B). rewrite V in B. change (bpow radix2 (-52)) with (/ 4503599627370496) in B. change (bpow radix2 (-50)) with (/ 1125899906842624) in B. lra.
Qed.

(** The hypotheses of C30: the correctly rounded exponential. *)
Example C30_case : exp_accurate nearest_exp /\
  (forall x, is_fin x = true -> Rabs (f2r x) <= 7 -> is_fin (nearest_exp x) = true /\ 0 < f2r (nearest_exp x)).
Proof.
  split; [exact C93_exp|]. intros x Fx Bx. destruct (C93_exp x Fx Bx) as (F & E). split; [exact F|].
  pose proof (exp_pos (f2r x)) as P. apply Rabs_le_inv in E. replace (2 ^ 40) with 1099511627776 in E by lra. lra.
Qed.
