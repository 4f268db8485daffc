(** * The gradient factor of word2vec *)
From Coq Require Import Lia Reals Lra.
From Flocq Require Import Core BinarySingleNaN.
From Verif.Lib Require Import Go F64 F64Facts.
From Verif.Spec Require Import Rows Training Cosine Logistic.
From Verif.Model Require Import Matrix Sigmoid Huffman Word2vec.
From Verif.Proofs Require Import Sigmoid Cosine Logistic Word2vec.
Local Open Scope R_scope.

Lemma bp1000 : bpow radix2 (-1075) <= bpow radix2 (-1000).
Proof. apply bpow_le. lia. Qed.

Lemma factor_close s lr label x : label = 0%Z \/ label = 1%Z -> is_fin s = true -> 0 <= f2r s <= 1 -> Rabs (f2r s - logistic x) <= 315 / 100000 ->
  is_fin lr = true -> 0 <= f2r lr -> gradient_factor label x (f2r lr) (fmul (fsub (f_of_Z label) s) lr).
Proof.
  intros Hl Fs Rs Cs Fl Rl. destruct (f_of_Z_exact label) as (El & Fz); [destruct Hl; subst; lia|].
  destruct (f_of_Z_exact 1) as (E1 & F1); [lia|].
  assert (Rz : IZR label = 0 \/ IZR label = 1) by (destruct Hl; subst; auto).
  set (L := f_of_Z label) in *. clearbody L.
  destruct (fsub_fin L s Fz Fs) as (Ed & Fd).
  { rewrite El. apply (rnd_small _ (f_of_Z 1)). rewrite E1. apply Rabs_le. destruct Rz as [Rz|Rz]; rewrite Rz; lra. }
  rewrite El in Ed. set (d := fsub L s) in *. clearbody d.
  assert (Dd : (label = 1%Z -> 0 <= f2r d <= 1) /\ (label = 0%Z -> -1 <= f2r d <= 0)).
  { rewrite Ed. split; intros ->.
    - split; [rewrite <- rnd_0; apply rnd_le; lra|]. rewrite <- E1. apply rnd_le_f. rewrite E1. lra.
    - split; [|apply Rle_trans with (rnd 0); [apply rnd_le; lra|rewrite rnd_0; lra]]. replace (-1) with (- f2r (f_of_Z 1)) by (rewrite E1; reflexivity).
      rewrite <- (rnd_generic (f_of_Z 1)), <- rnd_opp. apply rnd_le. rewrite E1. lra. }
  pose proof (rnd_err_lra (IZR label - f2r s) 1 ltac:(lia) ltac:(simpl; apply Rabs_lt; destruct Rz as [Rz|Rz]; rewrite Rz; lra)) as Rd.
  rewrite <- Ed in Rd. change (bpow radix2 (1 - 54)) with (/ 9007199254740992) in Rd.
  assert (Ad : Rabs (f2r d) <= 1).
  { destruct Hl as [H|H]; [destruct Dd as (_ & D)|destruct Dd as (D & _)]; specialize (D H); apply Rabs_le; lra. }
  assert (Ap : Rabs (f2r d * f2r lr) <= f2r lr).
  { rewrite Rabs_mult, (Rabs_pos_eq (f2r lr)) by exact Rl. pose proof (Rabs_pos (f2r d)). nra. }
  destruct (fmul_fin d lr Fd Fl) as (Eg & Fg); [apply (rnd_small _ lr); exact Ap|].
  split; [exact Fg|]. split; [|split].
  - intros H. destruct Dd as (D & _). specialize (D H). rewrite Eg. split; [rewrite <- rnd_0; apply rnd_le; nra|]. apply rnd_le_f. nra.
  - intros H. destruct Dd as (_ & D). specialize (D H). rewrite Eg. split; [|apply Rle_trans with (rnd 0); [apply rnd_le; nra|rewrite rnd_0; lra]].
    apply Rle_trans with (rnd (- f2r lr)); [rewrite rnd_opp, rnd_generic; lra|apply rnd_le; nra].
  - rewrite Eg. pose proof (rnd_abs_err (f2r d * f2r lr)) as ER. pose proof bp1000 as BP.
    assert (EU : uu * Rabs (f2r d * f2r lr) <= / 9007199254740992 * f2r lr).
    { rewrite uu_val. apply Rmult_le_compat_l; [lra|exact Ap]. }
    assert (EP : Rabs (f2r d * f2r lr - (IZR label - logistic x) * f2r lr) <= 318 / 100000 * f2r lr).
    { rewrite <- Rmult_minus_distr_r, Rabs_mult, (Rabs_pos_eq (f2r lr)) by exact Rl. apply Rmult_le_compat_r; [exact Rl|].
      apply Rabs_le_inv in Cs. apply Rabs_le. lra. }
    replace (rnd (f2r d * f2r lr) - (IZR label - logistic x) * f2r lr) with
      ((rnd (f2r d * f2r lr) - f2r d * f2r lr) + (f2r d * f2r lr - (IZR label - logistic x) * f2r lr)) by ring.
    eapply Rle_trans; [apply Rabs_triang|]. lra.
Qed.

Lemma dot_close u v : moderate u v -> is_fin (dot u v) = true /\ Rabs (f2r (dot u v) - dot_r u v) <= 2 / 10000.
Proof.
  intros (Hl & Hn & Fu & Fv & Hm). destruct (dot_float u v Fu Fv Hn Hl) as (F & E & _). fold (dot u v) in F, E. split; [exact F|].
  eapply Rle_trans; [exact E|]. pose proof (cauchy_len u v) as CL. pose proof (cc_pos (length u)) as CP.
  assert (CB : cc (length u) <= 2 / 10000000000).
  { eapply Rle_trans; [apply cc_bound; lia|]. assert (INR (length u) <= 1048576) by (rewrite INR_IZR_INZ; apply IZR_le; exact Hn). rewrite uu_val. lra. }
  pose proof (sum_abs_nonneg (prods (combine u v))). nra.
Qed.

Lemma predict_real fexp u v s : exp_accurate fexp -> moderate u v -> predict (sigmoid (sig_table fexp)) (dot u v) = Ret s ->
  is_fin s = true /\ 0 <= f2r s <= 1 /\ Rabs (f2r s - logistic (dot_r u v)) <= 315 / 100000.
Proof.
  intros HA HM H. destruct (dot_close u v HM) as (F & E). destruct (predict_close fexp _ s HA F H) as (Fs & Rs & Cs).
  split; [exact Fs|]. split; [exact Rs|]. pose proof (logistic_lip (dot_r u v) (f2r (dot u v))) as LP.
  replace (f2r s - logistic (dot_r u v)) with ((f2r s - logistic (f2r (dot u v))) + (logistic (f2r (dot u v)) - logistic (dot_r u v))) by ring.
  eapply Rle_trans; [apply Rabs_triang|]. lra.
Qed.

Lemma ns_step_gradient fexp lr ctx label r rows tmp dim m' tmp' : exp_accurate fexp ->
  label = 0%Z \/ label = 1%Z -> is_fin lr = true -> 0 <= f2r lr ->
  all_len dim rows -> (r < length rows)%nat -> length ctx = dim -> length tmp = dim -> moderate (nth r rows []) ctx ->
  ns_step (sigmoid (sig_table fexp)) lr ctx label (Z.of_nat r) (of_rows dim rows) tmp = Ret (m', tmp') ->
  exists g, gradient_factor label (dot_r (nth r rows []) ctx) (f2r lr) g /\
    m' = of_rows dim (upd rows r (axpy (nth r rows []) g ctx)) /\ tmp' = axpy tmp g (nth r rows []).
Proof.
  intros HA Hl Fl Rl AL Hr Hc Ht HM. rewrite (ns_step_rows _ lr ctx label r rows tmp dim Hl AL Hr Hc Ht). unfold ns_row_step.
  destruct (predict _ (dot (nth r rows []) ctx)) as [s| |] eqn:EP; cbn [obind]; try discriminate. intros H. injection H as <- <-.
  destruct (predict_real fexp _ _ s HA HM EP) as (Fs & Rs & Cs).
  eexists. split; [exact (factor_close s lr label _ Hl Fs Rs Cs Fl Rl)|]. split; reflexivity.
Qed.

Lemma one_minus code : (code = 0 \/ code = 1)%nat -> fsub (f_of_Z 1) (f_of_Z (Z.of_nat code)) = f_of_Z (1 - Z.of_nat code).
Proof. intros [-> | ->]; apply B2SF_inj; vm_compute; reflexivity. Qed.

Lemma hs_step_gradient fexp lr ctx p q h tmp h' tmp' : exp_accurate fexp ->
  is_fin lr = true -> 0 <= f2r lr -> (hn_code (hget h q) = 0 \/ hn_code (hget h q) = 1)%nat ->
  length tmp = length ctx -> moderate ctx (hn_vec (hget h p)) ->
  hs_loop (sigmoid (sig_table fexp)) lr ctx [p; q] h tmp = Ret (h', tmp') ->
  (h' = h /\ tmp' = tmp /\ 59 / 10 <= Rabs (dot_r ctx (hn_vec (hget h p)))) \/
  exists g, gradient_factor (1 - Z.of_nat (hn_code (hget h q))) (dot_r ctx (hn_vec (hget h p))) (f2r lr) g /\
    h' = set_vec h p (axpy (hn_vec (hget h p)) g ctx) /\ tmp' = axpy tmp g (hn_vec (hget h p)).
Proof.
  intros HA Fl Rl HC Ht HM. destruct HM as (Hl & HM'). assert (HM : moderate ctx (hn_vec (hget h p))) by (split; auto).
  cbn [hs_loop]. rewrite vdot_dot by exact Hl. cbn [obind]. set (vec := hn_vec (hget h p)) in *. rewrite minus6. unfold max_exp.
  destruct (dot_close _ _ HM) as (Fd & Cd). destruct six as (E6 & F6), msix as (M6 & G6).
  destruct (fle (dot ctx vec) (f_of_Z (-6)) || fge (dot ctx vec) (f_of_Z 6)) eqn:EG.
  - intros H. injection H as <- <-. left. split; [reflexivity|]. split; [reflexivity|]. apply Rabs_le_inv in Cd.
    apply Bool.orb_true_iff in EG. destruct EG as [E|E].
    + apply fle_spec in E. rewrite !fkey_fin, M6 in E by auto. rewrite Rabs_left1; lra.
    + apply fge_spec in E. rewrite !fkey_fin, E6 in E by auto. rewrite Rabs_pos_eq; lra.
  - destruct (sigmoid (sig_table fexp) (dot ctx vec)) as [s| |] eqn:ES; cbn [obind]; try discriminate.
    assert (EP : predict (sigmoid (sig_table fexp)) (dot ctx vec) = Ret s).
    { unfold predict. apply Bool.orb_false_iff in EG. destruct EG as (-> & ->). exact ES. }
    destruct (predict_real fexp _ _ s HA HM EP) as (Fs & Rs & Cs). rewrite one_minus by exact HC.
    rewrite vacc_zip by congruence. cbn [obind]. rewrite <- Hl, firstn_all. rewrite vacc_zip by congruence. cbn [obind].
    intros H. injection H as <- <-. right. eexists. split; [apply (factor_close s lr _ _)|split; reflexivity]; auto.
    destruct HC as [-> | ->]; [right|left]; reflexivity.
Qed.

(** One component. *)
Lemma component_moves a c g lr : ordinary a -> ordinary c -> is_fin g = true -> Rabs (f2r g) <= lr -> lr <= bpow radix2 400 ->
  let b := fadd a (fmul g c) in
  is_fin b = true /\ (0 <= f2r g -> 0 <= (f2r b - f2r a) * f2r c) /\ (f2r g <= 0 -> (f2r b - f2r a) * f2r c <= 0) /\
  Rabs (f2r b - f2r a) <= 3 * (lr * Rabs (f2r c)) + bpow radix2 (-1000).
Proof.
  intros (Fa & Ha) (Fc & Hc) Fg Hg HL b.
  pose proof (bpow_gt_0 radix2 400) as P4. pose proof (bpow_gt_0 radix2 (-400)) as P5.
  assert (Ba : Rabs (f2r a) <= bpow radix2 400) by (destruct Ha as [-> |[_ Ha]]; [rewrite Rabs_R0; lra|exact Ha]).
  assert (Bc : Rabs (f2r c) <= bpow radix2 400) by (destruct Hc as [-> |[_ Hc]]; [rewrite Rabs_R0; lra|exact Hc]).
  pose proof (Rabs_pos (f2r g)) as Pg. pose proof (Rabs_pos (f2r c)) as Pc.
  assert (Bp : Rabs (f2r g * f2r c) <= lr * Rabs (f2r c)) by (rewrite Rabs_mult; apply Rmult_le_compat_r; auto).
  assert (Bp2 : Rabs (f2r g * f2r c) <= bpow radix2 800) by (rewrite <- bp400; nra).
  pose proof (rnd_abs_err (f2r g * f2r c)) as Er.
  assert (MX : bpow radix2 801 < F64MAX) by (apply bpow_lt; lia).
  assert (B801 : bpow radix2 801 = 2 * bpow radix2 800) by (change 801%Z with (1 + 800)%Z; rewrite bpow_plus; reflexivity).
  assert (B800 : 1 <= bpow radix2 800) by (apply (bpow_le radix2 0 800); lia).
  assert (B48 : bpow radix2 400 <= bpow radix2 800 / 4).
  { assert (bpow radix2 400 * 4 <= bpow radix2 800); [|lra]. rewrite <- bp400. apply Rmult_le_compat_l; [lra|]. apply (bpow_le radix2 2 400). lia. }
  assert (B1 : bpow radix2 (-1075) <= / 4) by (apply (bpow_le radix2 (-1075) (-2)); lia).
  assert (Bx : Rabs (rnd (f2r g * f2r c)) <= Rabs (f2r g * f2r c) * (1 + uu) + bpow radix2 (-1075)).
  { pose proof (Rabs_triang_inv (rnd (f2r g * f2r c)) (f2r g * f2r c)). lra. }
  rewrite uu_val in Bx.
  destruct (fmul_fin g c Fg Fc) as (Em & Fm); [lra|].
  set (x := fmul g c) in *. rewrite <- Em in Bx.
  pose proof (rnd_add_rel a x) as Ea. rewrite uu_val in Ea.
  assert (Bs : Rabs (f2r a + f2r x) <= bpow radix2 800 * 8 / 5).
  { eapply Rle_trans; [apply Rabs_triang|]. lra. }
  destruct (fadd_fin a x Fa Fm) as (Eb & Fb).
  { pose proof (Rabs_triang_inv (rnd (f2r a + f2r x)) (f2r a + f2r x)). lra. }
  fold b in Eb, Fb. split; [exact Fb|].
  assert (MB : forall y z : f64, f2r y <= f2r z -> f2r y <= rnd (f2r z)) by (intros y z H; rewrite rnd_generic; exact H).
  assert (Up : 0 <= f2r x -> f2r a <= f2r b) by (intros H; rewrite Eb; apply rnd_ge_f; lra).
  assert (Dn : f2r x <= 0 -> f2r b <= f2r a) by (intros H; rewrite Eb; apply rnd_le_f; lra).
  assert (Xp : 0 <= f2r g * f2r c -> 0 <= f2r x) by (intros H; rewrite Em, <- rnd_0; apply rnd_le; exact H).
  assert (Xn : f2r g * f2r c <= 0 -> f2r x <= 0) by (intros H; rewrite Em, <- rnd_0; apply rnd_le; exact H).
  split; [|split].
  - intros H. destruct (Rle_lt_dec 0 (f2r c)) as [C|C].
    + specialize (Xp ltac:(nra)). specialize (Up Xp). nra.
    + specialize (Xn ltac:(nra)). specialize (Dn Xn). nra.
  - intros H. destruct (Rle_lt_dec 0 (f2r c)) as [C|C].
    + specialize (Xn ltac:(nra)). specialize (Dn Xn). nra.
    + specialize (Xp ltac:(nra)). specialize (Up Xp). nra.
  - assert (N2 : Rabs (f2r b - f2r a) <= 2 * Rabs (f2r x)).
    { assert (NE : Rabs (f2r b - (f2r a + f2r x)) <= Rabs (f2r a - (f2r a + f2r x))).
      { rewrite Eb. apply (round_N_pt radix2 (SpecFloat.fexp 53 1024) (fun t => negb (Z.even t)) (f2r a + f2r x)). apply generic_format_B2R. }
      replace (f2r a - (f2r a + f2r x)) with (- f2r x) in NE by ring. rewrite Rabs_Ropp in NE.
      replace (f2r b - f2r a) with ((f2r b - (f2r a + f2r x)) + f2r x) by ring. eapply Rle_trans; [apply Rabs_triang|]. lra. }
    assert (B2 : 2 * bpow radix2 (-1075) <= bpow radix2 (-1000)).
    {       change 2 with (bpow radix2 1). rewrite <- bpow_plus. apply bpow_le. lia. }
    pose proof (Rabs_pos (f2r g * f2r c)). lra.
Qed.
