(** * C116: repeating a LexVec update of one pair brings its error down to rounding noise *)
From Coq Require Import Reals Lra Lia List ZArith.
From Flocq Require Import Core BinarySingleNaN.
From Verif.Lib Require Import Go F64 F64Facts.
From Verif.Spec Require Import Rows Training Cells Cosine Residual Converge.
From Verif.Model Require Import Matrix Cells Lexvec.
From Verif.Proofs Require Import Cosine SavedCosine Residual Converge LexConverge.
From Verif.Proofs Require Word2vec Cells Lexvec.
Import ListNotations.
Local Open Scope R_scope.

(** C116. [n] LexVec updates of two different rows, with a learning rate that leaves room for them:
    nothing overflows, no other row changes, the lengths of the two rows together stay at least [m], and the
    error is at most (1 - rate*m^2/4)^n times what it was, plus 10^-6 / (rate*m^2/4) for rounding. *)
Theorem C116_repeat : forall dim rows a b lr f m n, a <> b -> all_len dim rows -> (a < length rows)%nat -> (b < length rows)%nat ->
  let x := nth a rows [] in let y := nth b rows [] in let c := f2r lr * (m * m) / 4 in
  finite_row x -> finite_row y -> small1 f -> is_fin lr = true -> lex_room (f2r lr) m n f x y ->
  exists x' y',
    ofold (fun (_ : nat) mm => lex_update (Z.of_nat dim) lr (Z.of_nat a) (Z.of_nat b) f mm) (seq 0 n) (of_rows dim rows) = Ret (of_rows dim (upd2 rows a b x' y')) /\
    length x' = dim /\ length y' = dim /\ finite_row x' /\ finite_row y' /\ m <= len_r x' + len_r y' /\
    Rabs (lex_error f x' y') <= (1 - c) ^ n * Rabs (lex_error f x y) + / 10 ^ 6 / c.
Proof.
  intros dim rows a b lr f m n Hne HA H1 H2 x y c Fx Fy Bf Fl HR. unfold lex_room in HR. cbv zeta in HR. replace (10 ^ 5) with 100000 in HR by (cbn; ring). replace (10 ^ 6) with 1000000 by (cbn; ring).
  set (T := 4 / (m * m) * Rabs (lex_error f x y) + INR n * (4 / (m * m) + 1) / 100000) in HR. set (L0 := (len_r x + len_r y + 1) * exp T) in *.
  set (E0 := Rabs (lex_error f x y) + INR n / 100000). destruct HR as (Hr & Hm & RM & HL & HG).
  assert (MM : 0 < m * m) by nra. assert (Pq : 0 < 4 / (m * m)) by (apply Rdiv_lt_0_compat; lra). pose proof (pos_INR n) as Pn. pose proof (Rabs_pos (lex_error f x y)) as Pe.
  assert (PT : 0 <= T). { unfold T. pose proof (Rmult_le_pos (4 / (m * m)) (Rabs (lex_error f x y))). pose proof (Rmult_le_pos (INR n) (4 / (m * m) + 1)). lra. }
  assert (RY : lex_roomy L0 E0 m (length (seq 0 n)) f x y).
  { unfold lex_roomy. rewrite seq_length. fold T. split; [apply Rle_refl|]. split; [exact RM|]. apply Rle_refl. }
  destruct (lex_many dim lr f L0 E0 m a b Bf Fl Hr Hm HL ltac:(unfold E0; lra) Hne (seq 0 n) rows HA H1 H2 Fx Fy RY) as (x' & y' & R & Q1 & Q2 & Q3 & Q4 & Q5 & Q6).
  fold x y c in Q6. rewrite seq_length in Q6. exists x', y'. split; [exact R|]. split; [exact Q1|]. split; [exact Q2|]. split; [exact Q3|]. split; [exact Q4|]. split; [exact Q5|].
  eapply Rle_trans; [exact Q6|].
  assert (Cpos : 0 < c <= 1).
  { assert (P : 0 < f2r lr * (m * m)) by (apply Rmult_lt_0_compat; lra). unfold c. split; [lra|].
    pose proof (exp_1 T). pose proof (exp_1 (2 * T)).
    assert (Plx : 0 <= len_r x) by (rewrite len_r_rlen; apply rlen_pos). assert (Ply : 0 <= len_r y) by (rewrite len_r_rlen; apply rlen_pos).
    assert (m <= len_r x + len_r y). { eapply Rle_trans; [|exact RM]. rewrite <- (Rmult_1_r m) at 1. apply Rmult_le_compat_l; lra. }
    assert (len_r x + len_r y + 1 <= L0). { unfold L0. rewrite <- (Rmult_1_r (len_r x + len_r y + 1)) at 1. apply Rmult_le_compat_l; lra. }
    assert (m * m <= L0 * L0) by (apply Rmult_le_compat; lra).
    assert (f2r lr * (m * m) <= f2r lr * (L0 * L0 + Rabs (lex_error f x y) + INR n / 100000)) by (apply Rmult_le_compat_l; lra). lra. }
  assert (0 <= (1 - c) ^ n) by (apply pow_le; lra).
  assert (0 <= / 1000000 / c) by (unfold Rdiv; apply Rmult_le_pos; [lra|left; apply Rinv_0_lt_compat; lra]). nra.
Qed.
Print Assumptions C116_repeat.

(** Non-vacuous: the rows (4) and (4) with the value 15, the learning rate 1/1024, and 1000 updates: the
    error, 1 at first, falls to 1/20. *)
Example C116_case : let lr := fdiv (f_of_Z 1) (f_of_Z 1024) in let x := [f_of_Z 4] in let f := f_of_Z 15 in
  finite_row x /\ small1 f /\ is_fin lr = true /\ lex_room (f2r lr) 4 1000 f x x /\ lex_error f x x = 1.
Proof.
  cbv zeta. set (lr := fdiv (f_of_Z 1) (f_of_Z 1024)).
  assert (EL : is_fin lr = true /\ f2r lr = / 1024).
  { assert (V : fshow lr = Some (2 ^ 52, -62)%Z) by (vm_compute; reflexivity). destruct (fshow_spec _ _ _ V) as (F & E). split; [exact F|]. rewrite E.
    change (2 ^ 52)%Z with 4503599627370496%Z. change (bpow radix2 (-62)) with (/ 4611686018427387904). lra. }
  destruct EL as (FL & VL). destruct (f_of_Z_exact 4) as (V4 & F4); [lia|]. destruct (f_of_Z_exact 15) as (V15 & F15); [lia|].
  assert (D : dot_r [f_of_Z 4] [f_of_Z 4] = 16) by (unfold dot_r; cbn [combine map fold_right fst snd]; rewrite V4; ring).
  assert (E : lex_error (f_of_Z 15) [f_of_Z 4] [f_of_Z 4] = 1) by (unfold lex_error; rewrite D, V15; ring).
  assert (LN : len_r [f_of_Z 4] = 4). { unfold len_r. rewrite D. replace 16 with (4 * 4) by ring. apply sqrt_square. lra. }
  split. { split; [cbn; lia|]. constructor; [exact F4|constructor]. }
  split. { split; [exact F15|]. rewrite V15, Rabs_pos_eq; lra. }
  split; [exact FL|]. split; [|exact E]. unfold lex_room. cbv zeta. rewrite E, LN, VL, Rabs_R1. replace (10 ^ 5) with 100000 by (cbn; ring).
  replace (INR 1000) with 1000 by (rewrite INR_IZR_INZ; reflexivity).
  set (T := 4 / (4 * 4) * 1 + 1000 * (4 / (4 * 4) + 1) / 100000). assert (TV : T = 21 / 80) by (unfold T; field). rewrite TV. clear T TV.
  assert (X : exp (21 / 80) <= (80 / 73) ^ 3).
  { replace (21 / 80) with (7 / 80 + 7 / 80 + 7 / 80) by field. rewrite !exp_plus. assert (P : 0 < exp (7 / 80)) by apply exp_pos.
    assert (B : exp (7 / 80) <= 80 / 73).
    { pose proof (exp_1 (- (7 / 80))) as H. rewrite exp_Ropp in H. apply Rmult_le_reg_r with (/ exp (7 / 80)); [apply Rinv_0_lt_compat; exact P|]. rewrite Rinv_r by lra. lra. }
    set (z := exp (7 / 80)) in *. clearbody z. replace ((80 / 73) ^ 3) with (80 / 73 * (80 / 73) * (80 / 73)) by ring. apply Rmult_le_compat; [|lra| |exact B]; [apply Rmult_le_pos; lra|apply Rmult_le_compat; lra]. }
  assert (X2 : exp (2 * (21 / 80)) = exp (21 / 80) * exp (21 / 80)) by (rewrite <- exp_plus; f_equal; lra). rewrite X2.
  pose proof (exp_pos (21 / 80)) as P. set (z := exp (21 / 80)) in *. clearbody z. assert (ZB : z <= 132 / 100) by (eapply Rle_trans; [exact X|]; lra).
  assert (Z2 : z * z <= 132 / 100 * (132 / 100)) by (apply Rmult_le_compat; lra).
  split; [lra|]. split; [lra|]. split; [lra|]. split; [lra|]. replace ((4 + 4 + 1) * z * ((4 + 4 + 1) * z)) with (81 * (z * z)) by ring. lra.
Qed.
