(** * C115: repeating the update of one pair brings its error down to rounding noise *)
From Coq Require Import Lia Reals Lra List ZArith.
From Flocq Require Import Core BinarySingleNaN.
From Verif.Lib Require Import Go F64 F64Facts.
From Verif.Spec Require Import Rows Training Cells Cosine Residual Converge.
From Verif.Model Require Import Matrix Cells Glove Lexvec Options.
From Verif.Proofs Require Import Cosine SavedCosine Residual Converge.
From Verif.Proofs Require Word2vec Cells Glove RunGlove AdaGrad TrainProps.
From Verif.Properties Require Import P35_Residual.
From Coq Require Import Permutation.
From Verif.Spec Require Import Readable Runs Interleave.
From Verif.Model Require Import Dictionary Reader Train Sched Run.
From Verif.Model Require Corpus.
From Verif.Properties Require P33_GloveRuns P16_Train.
Import ListNotations.
Local Open Scope R_scope.

Lemma finite_split x dim : length x = S dim -> finite_row x -> finite_row (vec x) /\ is_fin (bias x) = true /\ length (vec x) = dim.
Proof.
  intros L (N & F). assert (NE : x <> []) by (intros ->; discriminate L). pose proof (app_removelast_last fzero NE) as E. fold (vec x) (bias x) in E.
  assert (LV : length (vec x) = dim) by (apply Cells.vec_length; exact L).
  rewrite E in F. apply Forall_app in F. destruct F as (F1 & F2). inversion F2; subst. split; [split; [lia|exact F1]|]. split; [assumption|reflexivity].
Qed.

Lemma one_step dim lr f coef x y L0 T0 k : let rate := f2r coef * f2r lr in let d := glove_diff lr f coef x y in
  length x = S dim -> length y = S dim -> finite_row x -> finite_row y -> small1 f -> is_fin lr = true -> is_fin coef = true ->
  0 < rate <= 1 -> L0 <= 30 -> rate * (L0 * L0 + 2 + T0) <= 1 / 2 -> roomy L0 T0 (S k) f x y ->
  let x' := sgd_row d x y in let y' := sgd_row d y x in
  length x' = S dim /\ length y' = S dim /\ finite_row x' /\ finite_row y' /\ roomy L0 T0 k f x' y' /\
  Rabs (glove_error f x' y') <= (1 - rate) * Rabs (glove_error f x y) + / 1000000.
Proof.
  intros rate d Lx Ly Fx Fy Bf Fl Fc Hr HL0 HG HR x' y'.
  destruct (finite_split x dim Lx Fx) as ((Nx & Vx) & Fbx & Lvx). destruct (finite_split y dim Ly Fy) as ((Ny & Vy) & Fby & Lvy).
  unfold roomy in HR. rewrite S_INR in HR. set (e := glove_error f x y) in *. pose proof (Rabs_pos e) as Pe. pose proof (pos_INR k) as Pk.
  destruct HR as (RL & RT & RB1 & RB2).
  set (lx := len_r (vec x)) in *. set (ly := len_r (vec y)) in *.
  assert (Plx : 0 <= lx) by (unfold lx; rewrite len_r_rlen; apply rlen_pos). assert (Ply : 0 <= ly) by (unfold ly; rewrite len_r_rlen; apply rlen_pos).
  assert (X1 : 1 <= exp (Rabs e + (INR k + 1) / 100000)) by (pose proof (exp_1 (Rabs e + (INR k + 1) / 100000)); lra).
  assert (ML : lx + ly + 1 <= L0).
  { eapply Rle_trans; [|exact RL]. rewrite <- (Rmult_1_r (lx + ly + 1)) at 1. apply Rmult_le_compat_l; lra. }
  assert (Sx : small (vec x)) by (split; [exact Nx|split; [exact Vx|fold lx; lra]]). assert (Sy : small (vec y)) by (split; [exact Ny|split; [exact Vy|fold ly; lra]]).
  assert (Bx : small1 (bias x)) by (split; [exact Fbx|lra]). assert (By : small1 (bias y)) by (split; [exact Fby|lra]).
  assert (SZ : 2 <= glove_size x y <= L0 * L0 + 2).
  { unfold glove_size. assert (XX : dot_r (vec x) (vec x) = lx * lx) by (unfold lx; rewrite len_r_rlen, rlen_sq, dot_r_rdot; reflexivity).
    assert (YY : dot_r (vec y) (vec y) = ly * ly) by (unfold ly; rewrite len_r_rlen, rlen_sq, dot_r_rdot; reflexivity). rewrite XX, YY. nra. }
  assert (G : gentle rate (glove_size x y) e).
  { split; [lra|]. eapply Rle_trans; [|exact HG]. apply Rmult_le_compat_l; lra. }
  pose proof (glove_rows dim lr f coef x y Lx Ly Sx Sy Bx By Bf Fl Fc G) as E. cbv zeta in E. fold d x' y' rate e in E.
  replace (10 ^ 6) with 1000000 in E by (cbn; ring).
  assert (E' : Rabs (glove_error f x' y') <= (1 - rate) * Rabs e + / 1000000).
  { eapply Rle_trans; [exact E|]. apply Rplus_le_compat_r. apply Rmult_le_compat_r; [exact Pe|]. assert (rate * 2 <= rate * glove_size x y) by (apply Rmult_le_compat_l; lra). lra. }
  destruct (C97_glove_factor lr f coef x y ltac:(congruence) Sx Sy Bx By Bf Fl Fc ltac:(fold rate; lra)) as (Fd & Ed). fold d in Fd, Ed. fold rate e in Ed.
  replace (10 ^ 7) with 10000000 in Ed by (cbn; ring). replace (10 ^ 12) with 1000000000000 in Ed by (cbn; ring).
  assert (AD : Rabs (f2r d) <= rate * Rabs e + 4 / 10000000).
  { replace (f2r d) with ((f2r d - rate * e) + rate * e) by ring. eapply Rle_trans; [apply Rabs_triang|]. rewrite (Rabs_mult rate e), (Rabs_pos_eq rate) by lra. lra. }
  assert (RE : rate * Rabs e <= 1 / 2).
  { destruct G as (_ & G). rewrite Rmult_plus_distr_l in G. assert (0 <= rate * glove_size x y) by (apply Rmult_le_pos; lra). lra. }
  assert (HD : Rabs (f2r d) <= 1) by lra. pose proof (Rabs_pos (f2r d)) as Pd.
  destruct (step_len (vec x) (vec y) d ltac:(congruence) Sx Sy Fd HD) as (F1 & N1). destruct (step_len (vec y) (vec x) d ltac:(congruence) Sy Sx Fd HD) as (F2 & N2).
  fold lx ly in N1, N2.
  assert (V0 : vec x' = step_row d (vec x) (vec y) /\ vec y' = step_row d (vec y) (vec x) /\ bias x' = fsub (bias x) d /\ bias y' = fsub (bias y) d).
  { split; [apply removelast_last|]. split; [apply removelast_last|]. split; apply last_last. }
  destruct V0 as (W1 & W2 & W3 & W4).
  assert (BB : forall b : f64, is_fin b = true -> Rabs (f2r b) <= 30 -> is_fin (fsub b d) = true /\ Rabs (f2r (fsub b d)) <= Rabs (f2r b) + Rabs (f2r d) + / 1000000000000).
  { intros b Fb Hb. assert (A1 : Rabs (f2r b - f2r d) <= Rabs (f2r b) + Rabs (f2r d)) by (unfold Rminus; eapply Rle_trans; [apply Rabs_triang|rewrite Rabs_Ropp; lra]).
    assert (A2 : Rabs (f2r b - f2r d) <= 4096) by lra. destruct (fsub_fin b d Fb Fd (no_overflow _ A2)) as (V & F). split; [exact F|].
    pose proof (rnd_near _ A2) as R1. rewrite <- V in R1. replace (f2r (fsub b d)) with ((f2r (fsub b d) - (f2r b - f2r d)) + (f2r b - f2r d)) by ring.
    eapply Rle_trans; [apply Rabs_triang|]. lra. }
  destruct (BB (bias x) Fbx ltac:(lra)) as (G1 & D1). destruct (BB (bias y) Fby ltac:(lra)) as (G2 & D2).
  assert (LX' : length x' = S dim) by (apply Cells.sgd_row_length; auto). assert (LY' : length y' = S dim) by (apply Cells.sgd_row_length; auto).
  split; [exact LX'|]. split; [exact LY'|].
  destruct Fx as (Nx' & _). destruct Fy as (Ny' & _).
  split. { split; [rewrite LX', <- Lx; exact Nx'|]. unfold x', sgd_row. apply Forall_app. split; [exact F1|]. constructor; [exact G1|constructor]. }
  split. { split; [rewrite LY', <- Ly; exact Ny'|]. unfold y', sgd_row. apply Forall_app. split; [exact F2|]. constructor; [exact G2|constructor]. }
  split; [|exact E']. unfold roomy. rewrite W1, W2, W3, W4.
  set (e' := glove_error f x' y') in *. clearbody e' e. clear E G HG SZ.
  set (a := Rabs e) in *. set (a' := Rabs e') in *. clearbody a. 
  assert (T' : a' + INR k / 100000 <= a + (INR k + 1) / 100000) by lra.
  assert (ET : a' + INR k / 100000 + (Rabs (f2r d) + 6 / 100000000000) <= a + (INR k + 1) / 100000) by lra.
  split; [|split; [lra|split; lra]].
  eapply Rle_trans; [|exact RL].
  apply Rle_trans with ((lx + ly + 1) * (exp (Rabs (f2r d) + 6 / 100000000000) * exp (a' + INR k / 100000))).
  - rewrite <- Rmult_assoc. apply Rmult_le_compat_r; [left; apply exp_pos|].
    apply Rle_trans with ((lx + ly + 1) * (1 + (Rabs (f2r d) + 6 / 100000000000))); [|apply Rmult_le_compat_l; [lra|apply exp_1]].
    assert (0 <= (lx + ly) * (6 / 100000000000)) by (apply Rmult_le_pos; lra). lra.
  - apply Rmult_le_compat_l; [lra|]. rewrite <- exp_plus. apply exp_le_le. lra.
Qed.

(** [n] updates. *)
Lemma many_steps dim lr f coef L0 T0 : let rate := f2r coef * f2r lr in small1 f -> is_fin lr = true -> is_fin coef = true ->
  0 < rate <= 1 -> L0 <= 30 -> rate * (L0 * L0 + 2 + T0) <= 1 / 2 ->
  forall n x y, length x = S dim -> length y = S dim -> finite_row x -> finite_row y -> roomy L0 T0 n f x y ->
  let p := pair_iter lr f coef n (x, y) in
  finite_row (fst p) /\ finite_row (snd p) /\ Rabs (glove_error f (fst p) (snd p)) <= (1 - rate) ^ n * Rabs (glove_error f x y) + (1 - (1 - rate) ^ n) * (/ 1000000 / rate).
Proof.
  intros rate Bf Fl Fc Hr HL HG. induction n as [|n IH]; intros x y Lx Ly Fx Fy HR p.
  - unfold p. change (pair_iter lr f coef 0 (x, y)) with (x, y). cbn [fst snd pow]. split; [exact Fx|]. split; [exact Fy|]. lra.
  - destruct (one_step dim lr f coef x y L0 T0 n Lx Ly Fx Fy Bf Fl Fc Hr HL HG HR) as (Lx' & Ly' & Fx' & Fy' & HR' & E).
    specialize (IH _ _ Lx' Ly' Fx' Fy' HR'). cbv zeta in IH.
    assert (EP : p = pair_iter lr f coef n (pair_step lr f coef (x, y))).
    { unfold p, pair_iter. generalize (x, y). clear. intros q. induction n as [|n IH]; [reflexivity|].
      change (Nat.iter (S (S n)) (pair_step lr f coef) q) with (pair_step lr f coef (Nat.iter (S n) (pair_step lr f coef) q)). rewrite IH. reflexivity. }
    change (pair_step lr f coef (x, y)) with (sgd_row (glove_diff lr f coef x y) x y, sgd_row (glove_diff lr f coef x y) y x) in EP. rewrite <- EP in IH.
    fold rate in E. destruct IH as (G1 & G2 & G3). split; [exact G1|]. split; [exact G2|]. eapply Rle_trans; [exact G3|].
    set (e1 := Rabs (glove_error f _ _)) in E |- *. set (e0 := Rabs (glove_error f x y)) in *. clearbody e1 e0. cbn [pow].
    assert (P : 0 <= (1 - rate) ^ n) by (apply pow_le; lra). set (w := (1 - rate) ^ n) in *. clearbody w.
    assert (K : w * e1 <= w * ((1 - rate) * e0 + / 1000000)) by (apply Rmult_le_compat_l; auto).
    set (kk := / 1000000 / rate). assert (EK : / 1000000 = rate * kk) by (unfold kk; field; lra). rewrite EK in K. clearbody kk. lra.
Qed.

Lemma room_roomy rate n f x y : room rate n f x y ->
  let T0 := Rabs (glove_error f x y) + INR n / 100000 in let L0 := (len_r (vec x) + len_r (vec y) + 1) * exp T0 in
  0 < rate <= 1 /\ L0 <= 30 /\ rate * (L0 * L0 + 2 + T0) <= 1 / 2 /\ roomy L0 T0 n f x y.
Proof.
  unfold room. replace (10 ^ 5) with 100000 by (cbn; ring). intros (A & B & C & D & E). cbv zeta in *. split; [exact A|]. split; [exact B|]. split; [exact C|].
  unfold roomy. repeat split; auto; lra.
Qed.
Lemma tail_bound rate n e : 0 < rate <= 1 -> (1 - rate) ^ n * e + (1 - (1 - rate) ^ n) * (/ 1000000 / rate) <= (1 - rate) ^ n * e + / 10 ^ 6 / rate.
Proof.
  intros H. replace (10 ^ 6) with 1000000 by (cbn; ring). assert (0 <= (1 - rate) ^ n) by (apply pow_le; lra).
  assert (0 <= / 1000000 / rate) by (unfold Rdiv; apply Rmult_le_pos; [lra|left; apply Rinv_0_lt_compat; lra]). nra.
Qed.

(** C115. [n] stochastic updates of one pair of rows, with a learning rate that leaves room for them:
    nothing overflows, no other row changes, and the error is at most (1 - rate)^n times what it was,
    plus 10^-6 / rate for rounding. *)
Theorem C115_repeat : forall dim rows r1 r2 lr f coef n, r1 <> r2 -> all_len (S dim) rows -> (r1 < length rows)%nat -> (r2 < length rows)%nat ->
  let x := nth r1 rows [] in let y := nth r2 rows [] in let rate := f2r coef * f2r lr in
  finite_row x -> finite_row y -> small1 f -> is_fin lr = true -> is_fin coef = true -> room rate n f x y ->
  exists x' y',
    ofold (fun (_ : nat) m => sgd_train_one lr (Z.of_nat r1) (Z.of_nat r2) f coef m) (seq 0 n) (of_rows (S dim) rows) = Ret (of_rows (S dim) (upd2 rows r1 r2 x' y')) /\
    length x' = S dim /\ length y' = S dim /\ finite_row x' /\ finite_row y' /\
    Rabs (glove_error f x' y') <= (1 - rate) ^ n * Rabs (glove_error f x y) + / 10 ^ 6 / rate.
Proof.
  intros dim rows r1 r2 lr f coef n Hne HA H1 H2 x y rate Fx Fy Bf Fl Fc HR.
  assert (Lx : length x = S dim) by (apply Word2vec.all_len_nth; auto). assert (Ly : length y = S dim) by (apply Word2vec.all_len_nth; auto).
  destruct (room_roomy _ _ _ _ _ HR) as (A & B & C & D).
  destruct (many_steps dim lr f coef _ _ Bf Fl Fc A B C n x y Lx Ly Fx Fy D) as (G1 & G2 & G3). fold rate in G3.
  exists (fst (pair_iter lr f coef n (x, y))), (snd (pair_iter lr f coef n (x, y))).
  split. { rewrite (repeat_rows dim r1 r2 lr f coef Hne (seq 0 n) rows HA H1 H2). rewrite seq_length. reflexivity. }
  destruct (pair_iter_length dim lr f coef n x y Lx Ly) as (P1 & P2). split; [exact P1|]. split; [exact P2|]. split; [exact G1|]. split; [exact G2|].
  eapply Rle_trans; [exact G3|]. apply tail_bound. exact A.
Qed.
Print Assumptions C115_repeat.

(** ** Whole trainings *)
Lemma exp_T T : exp T <= 30 -> T <= 9.
Proof.
  intros H. destruct (Rle_lt_dec T 9) as [L|L]; [exact L|exfalso].
  pose proof (exp_1 (T / 2)) as E. assert (E2 : exp T = exp (T / 2) * exp (T / 2)) by (rewrite <- exp_plus; f_equal; lra). nra.
Qed.
Lemma exp_nonneg T : 0 <= T -> 1 <= exp T. Proof. intros H. pose proof (exp_1 T). lra. Qed.

(** Rows of numbers between 0 and B. *)
Lemma dot_box B : 0 <= B -> forall a b : list f64, length a = length b -> Forall (fun u : f64 => is_fin u = true /\ 0 <= f2r u <= B) a -> Forall (fun u : f64 => is_fin u = true /\ 0 <= f2r u <= B) b ->
  0 <= dot_r a b <= INR (length a) * (B * B).
Proof.
  intros PB. induction a as [|p a IH]; intros [|q b] HL HA HB; try discriminate HL; [unfold dot_r; cbn; lra|].
  inversion HA as [|? ? (_ & A1) HA']; subst. inversion HB as [|? ? (_ & B1) HB']; subst. specialize (IH b (eq_add_S _ _ HL) HA' HB').
  cbn [length]. rewrite S_INR. rewrite !dot_r_rdot in *. cbn [map]. rewrite rdot_cons. assert (0 <= f2r p * f2r q <= B * B) by nra. lra.
Qed.
Lemma error_box B f dim x y : 0 <= B -> length x = S dim -> length y = S dim ->
  Forall (fun u : f64 => is_fin u = true /\ 0 <= f2r u <= B) x -> Forall (fun u : f64 => is_fin u = true /\ 0 <= f2r u <= B) y ->
  Rabs (glove_error f x y) <= INR dim * (B * B) + 2 * B + Rabs (f2r f) /\
  len_r (vec x) <= sqrt (INR dim) * B /\ Rabs (f2r (bias x)) <= B.
Proof.
  intros PB Lx Ly Fx Fy.
  assert (SP : forall x : list f64, length x = S dim -> Forall (fun u : f64 => is_fin u = true /\ 0 <= f2r u <= B) x ->
    length (vec x) = dim /\ Forall (fun u : f64 => is_fin u = true /\ 0 <= f2r u <= B) (vec x) /\ 0 <= f2r (bias x) <= B).
  { clear x y Lx Ly Fx Fy. intros x L F. assert (NE : x <> []) by (intros ->; discriminate L). pose proof (app_removelast_last fzero NE) as E. fold (vec x) (bias x) in E.
    rewrite E in F. apply Forall_app in F. destruct F as (F1 & F2). inversion F2 as [|? ? (_ & Q) _]; subst. split; [apply Cells.vec_length; exact L|]. split; [exact F1|exact Q]. }
  destruct (SP x Lx Fx) as (V1 & W1 & B1). destruct (SP y Ly Fy) as (V2 & W2 & B2).
  pose proof (dot_box B PB (vec x) (vec y) ltac:(congruence) W1 W2) as D. rewrite V1 in D.
  pose proof (dot_box B PB (vec x) (vec x) eq_refl W1 W1) as DD. rewrite V1 in DD.
  split.
  - unfold glove_error. replace (dot_r (vec x) (vec y) + f2r (bias x) + f2r (bias y) - f2r f) with ((dot_r (vec x) (vec y) + f2r (bias x) + f2r (bias y)) + - f2r f) by ring.
    eapply Rle_trans; [apply Rabs_triang|]. rewrite Rabs_Ropp. apply Rplus_le_compat_r. rewrite Rabs_pos_eq by lra. lra.
  - split; [|rewrite Rabs_pos_eq by lra; lra]. unfold len_r. rewrite <- (sqrt_square B) by exact PB. rewrite <- sqrt_mult by (try apply pos_INR; nra). apply sqrt_le_1_alt. lra.
Qed.

Lemma unit_dim dim : (1 <= dim <= 2 ^ 20)%Z -> forall x : f64, fle fzero x = true -> fle x (fdiv (f_of_Z 1) (f_of_Z dim)) = true ->
  is_fin x = true /\ 0 <= f2r x <= 11 / 10 / IZR dim.
Proof.
  intros HD x H1 H2. destruct (f_of_Z_exact 1) as (V1 & F1); [lia|]. destruct (f_of_Z_exact dim) as (V2 & F2); [lia|].
  assert (PD : 1 <= IZR dim) by (apply IZR_le; lia). assert (PD2 : IZR dim <= 1048576) by (apply (IZR_le _ 1048576); lia).
  assert (I1 : 0 < / IZR dim <= 1). { split; [apply Rinv_0_lt_compat; lra|]. rewrite <- Rinv_1. apply Rinv_le_contravar; lra. }
  assert (I2 : / 1048576 <= / IZR dim) by (apply Rinv_le_contravar; lra).
  assert (NZ : f2r (f_of_Z dim) <> 0) by (rewrite V2; lra).
  assert (AB : Rabs (f2r (f_of_Z 1) / f2r (f_of_Z dim)) <= 4096). { rewrite V1, V2. unfold Rdiv. rewrite Rmult_1_l, Rabs_pos_eq by lra. lra. }
  destruct (fdiv_fin (f_of_Z 1) (f_of_Z dim) F1 NZ (no_overflow _ AB)) as (V & F).
  pose proof (rnd_near _ AB) as E. rewrite <- V in E. rewrite V1, V2 in E. unfold Rdiv in E. rewrite Rmult_1_l in E. apply Rabs_le_inv in E.
  apply fle_spec in H1. apply fle_spec in H2. destruct H1 as (_ & NX & K1). destruct H2 as (_ & _ & K2).
  set (c := fdiv (f_of_Z 1) (f_of_Z dim)) in *. clearbody c. rewrite (fkey_fin c F) in K2. rewrite (fkey_fin fzero) in K1 by reflexivity. rewrite fzero_r in K1.
  assert (FX : is_fin x = true).
  { pose proof (f2r_bound c) as BC. apply Rabs_lt_inv in BC. destruct x as [s|[]| |s m ex H]; try reflexivity; [| |discriminate NX].
    - exfalso. pose proof F64MAX_pos as P. change (fkey (B754_infinity true)) with (- F64MAX) in K1. lra.
    - exfalso. change (fkey (B754_infinity false)) with F64MAX in K2. lra. }
  rewrite (fkey_fin x FX) in K1, K2. split; [exact FX|]. split; [exact K1|]. unfold Rdiv at 1. lra.
Qed.

(** C115. GloVe with the solver sgd, on a text with a single co-occurring pair, of two different words:
    whatever the random initial values, the order of the goroutines and their number, training brings the
    error of each of the two combinations (word vector of one, context vector of the other) down to
    (1 - rate)^Iter times 4/Dim + |log count|, plus 10^-6/rate, where rate is the learning rate times
    the weight of the pair and leaves room. *)
Theorem C115_training : forall lower rand flog fpow order o doc all g0 it g, (forall m, Permutation (order m) m) ->
  (forall k, is_fin (rand k) = true /\ 0 <= f2r (rand k) < 1) ->
  glv_usable lower o doc all -> (1 <= glv_Dim o < 2 ^ 20)%Z -> glv_SolverType o = "sgd"%string ->
  glv_setup lower rand flog fpow order o doc = Ret g0 -> gl_items g0 = [it] -> it_l1 it <> it_l2 it ->
  let V := dict_len (gl_dic g0) in let col := S (Z.to_nat (glv_Dim o)) in let n := Z.to_nat (glv_Iter o) in
  let rate := f2r (it_coef it) * f2r (glv_Initlr o) in let start := 4 / IZR (glv_Dim o) + Rabs (f2r (it_f it)) in
  let T := start + INR n / 10 ^ 5 in let L := (3 / sqrt (IZR (glv_Dim o)) + 1) * exp T in
  small1 (it_f it) -> is_fin (glv_Initlr o) = true -> is_fin (it_coef it) = true ->
  0 < rate <= 1 -> L <= 30 -> rate * (L * L + 2 + T) <= 1 / 2 ->
  glv_trained lower rand flog fpow order o doc g ->
  let a := Z.to_nat (it_l1 it) in let b := Z.to_nat (it_l2 it) in
  exists rows, gl_param g = of_rows col rows /\ all_len col rows /\ length rows = (2 * V)%nat /\ (a < V)%nat /\ (b < V)%nat /\
    forall r1 r2, (r1, r2) = (a, b + V)%nat \/ (r1, r2) = (a + V, b)%nat ->
      finite_row (nth r1 rows []) /\ finite_row (nth r2 rows []) /\
      Rabs (glove_error (it_f it) (nth r1 rows []) (nth r2 rows [])) <= (1 - rate) ^ n * start + / 10 ^ 6 / rate.
Proof.
  intros lower rand flog fpow order o doc all g0 it g HP HR HU HD Hsgd HS Hit Hne V col n rate start T L Sf Fl Fc Hr HL HG HT a b.
  destruct (RunGlove.glv_source_ok lower rand flog fpow order o doc all HU HP g0 HS) as (src & Hsrc).
  destruct (RunGlove.glv_ready_g0 lower rand flog fpow order o doc all HU HP g0 HS) as (rows & Ed & Em & A & LR & _ & HI & _).
  rewrite <- TrainProps.dict_len_distinct, <- Ed in LR, HI. fold V in LR, HI. fold col in Em, A.
  assert (ES : gl_solver g0 = Stochastic).
  { clear - HS Hsgd. unfold glv_setup in HS. destruct (load_corpus _ _ _ _ _ _ _ _ _) as [c0| |]; try discriminate. cbn [obind] in HS. cbv zeta in HS.
    destruct (mat_new _ _ _ 0%nat) as [[k m0]| |]; try discriminate. cbn [obind] in HS. rewrite Hsgd in HS. change (String.eqb "sgd" sgd_type) with true in HS. cbv iota in HS. cbn [obind] in HS.
    destruct (Corpus.c_cooc c0) as [co|]; [|discriminate]. destruct (make_items _ _ _ _ _ _ _); try discriminate. cbn [obind] in HS.
    apply (f_equal (fun r => match r with Ret s => gl_solver s | _ => Stochastic end)) in HS. cbn in HS. congruence. }
  rewrite Hit in HI. inversion HI as [|? ? ((I1 & I2) & I3 & I4) _]; subst.
  apply (P33_GloveRuns.C95_glove_interleavings lower rand flog fpow order o doc all g0 src HP HU HS Hsrc) in HT.
  destruct HT as (passes & m & sol & NP & FP & EO & ->). cbn [gl_param].
  assert (EC : concat (map (map snd) passes) = repeat it n).
  { fold n in NP. rewrite <- NP. clear - FP HP HU HS Hsrc Hit. induction FP as [|p ps Hp FP IH]; [reflexivity|]. cbn [map concat length repeat]. rewrite IH.
    pose proof (P33_GloveRuns.C95_every_item_once lower rand flog fpow order o doc all g0 src p HP HU HS Hsrc Hp) as Q. rewrite Hit in Q.
    symmetry in Q. apply Permutation_length_1_inv in Q. rewrite Q. reflexivity. }
  rewrite EC, Em, ES in EO. fold V in EO. unfold col in *. set (dim := Z.to_nat (glv_Dim o)) in *.
  assert (Ha : (a < V)%nat) by (unfold a; lia). assert (Hb : (b < V)%nat) by (unfold b; lia). assert (Hab : a <> b) by (unfold a, b; lia).
  assert (EI : it = Item (Z.of_nat a) (Z.of_nat b) (it_f it) (it_coef it)) by (unfold a, b; rewrite !Z2Nat.id by lia; destruct it; reflexivity).
  set (lr := glv_Initlr o) in *. set (f := it_f it) in *. set (coef := it_coef it) in *. rewrite EI in EO. clearbody a b f coef.
  rewrite (repeat_items dim V a b lr f coef Hab Ha Hb n rows A LR) in EO. cbv zeta in EO. injection EO as <- _.
  set (p := pair_iter lr f coef n (nth a rows [], nth (b + V) rows [])) in *. set (q := pair_iter lr f coef n (nth (a + V) rows [], nth b rows [])) in *.
  (* the initial rows *)
  assert (BX : forall r, (r < 2 * V)%nat -> Forall (fun u : f64 => is_fin u = true /\ 0 <= f2r u <= 11 / 10 / IZR (glv_Dim o)) (nth r rows [])).
  { intros r Hrr. destruct g0 as [d0 m0 s0 i0]. cbn [gl_param] in Em.
    pose proof (P16_Train.C74_initial_glove lower rand flog fpow order o doc d0 m0 s0 i0 HR ltac:(lia) HS) as C. rewrite Em in C. cbn [m_array of_rows] in C.
    rewrite Forall_concat in C. rewrite Forall_forall in C. specialize (C (nth r rows []) ltac:(apply nth_In; lia)). eapply Forall_impl; [|exact C]. cbv beta. intros u (U1 & U2).
    apply unit_dim; auto. lia. }
  assert (PD : 1 <= IZR (glv_Dim o)) by (apply IZR_le; lia).
  assert (ID : 0 < / IZR (glv_Dim o) <= 1). { split; [apply Rinv_0_lt_compat; lra|]. rewrite <- Rinv_1. apply Rinv_le_contravar; lra. }
  assert (IN : INR dim = IZR (glv_Dim o)) by (rewrite INR_IZR_INZ; unfold dim; rewrite Z2Nat.id by lia; reflexivity).
  set (D := IZR (glv_Dim o)) in *. set (B := 11 / 10 / D) in *.
  assert (PB : 0 <= B) by (unfold B, Rdiv; apply Rmult_le_pos; lra).
  assert (BD : D * B = 11 / 10) by (unfold B; field; lra).
  assert (E1 : D * (B * B) + 2 * B <= 4 / D).
  { replace (D * (B * B)) with (D * B * B) by ring. rewrite BD. unfold B, Rdiv. nra. }
  assert (SD : 1 <= sqrt D) by (rewrite <- sqrt_1; apply sqrt_le_1_alt; lra). assert (SS : sqrt D * sqrt D = D) by (apply sqrt_sqrt; lra).
  assert (E2 : sqrt D * B = 11 / 10 / sqrt D). { unfold B. rewrite <- SS at 2. field. lra. }
  assert (IS : 0 < / sqrt D) by (apply Rinv_0_lt_compat; lra).
  assert (PT : 0 <= T). { unfold T, start. pose proof (pos_INR n). pose proof (Rabs_pos (f2r f)). replace (10 ^ 5) with 100000 by (cbn; ring). unfold Rdiv. nra. }
  pose proof (exp_nonneg T PT) as XT.
  assert (TT : T <= 9). { apply exp_T. eapply Rle_trans; [|exact HL]. unfold L. rewrite <- (Rmult_1_l (exp T)) at 1. apply Rmult_le_compat_r; [lra|]. unfold Rdiv. lra. }
  assert (BB : B <= 11 / 10) by (unfold B, Rdiv; nra).
  (* each pair *)
  assert (K : forall r1 r2, (r1 < 2 * V)%nat -> (r2 < 2 * V)%nat ->
    let w := pair_iter lr f coef n (nth r1 rows [], nth r2 rows []) in
    finite_row (fst w) /\ finite_row (snd w) /\ Rabs (glove_error f (fst w) (snd w)) <= (1 - rate) ^ n * start + / 10 ^ 6 / rate).
  { intros r1 r2 H1 H2 w. pose proof (BX r1 H1) as X1. pose proof (BX r2 H2) as X2.
    assert (L1 : length (nth r1 rows []) = S dim) by (apply Word2vec.all_len_nth; auto; lia). assert (L2 : length (nth r2 rows []) = S dim) by (apply Word2vec.all_len_nth; auto; lia).
    unfold w. clear w. set (x := nth r1 rows []) in *. set (y := nth r2 rows []) in *. clearbody x y.
    destruct (error_box B f dim x y PB L1 L2 X1 X2) as (Q1 & Q2 & Q3). destruct (error_box B f dim y x PB L2 L1 X2 X1) as (_ & Q4 & Q5). rewrite IN in Q1, Q2, Q4. rewrite E2 in Q2, Q4.
    assert (QE : Rabs (glove_error f x y) <= start) by (unfold start; lra).
    assert (F1 : finite_row x). { split; [rewrite L1; unfold dim; lia|]. eapply Forall_impl; [|exact X1]. intros ? (? & _); assumption. }
    assert (F2 : finite_row y). { split; [rewrite L2; unfold dim; lia|]. eapply Forall_impl; [|exact X2]. intros ? (? & _); assumption. }
    assert (RM : roomy L T n f x y).
    { unfold roomy. unfold T in TT, XT |- *. replace (10 ^ 5) with 100000 in * by (cbn; ring). set (e := Rabs (glove_error f x y)) in *.
      split; [|split; [lra|split; lra]]. unfold L. fold T. unfold T. replace (10 ^ 5) with 100000 by (cbn; ring).
      apply Rmult_le_compat; [|left; apply exp_pos| |apply exp_le_le; lra].
      - pose proof (rlen_pos (map f2r (vec x))). pose proof (rlen_pos (map f2r (vec y))). rewrite !len_r_rlen. lra.
      - unfold Rdiv in *. lra. }
    destruct (many_steps dim lr f coef L T Sf Fl Fc Hr HL HG n x y L1 L2 F1 F2 RM) as (G1 & G2 & G3). split; [exact G1|]. split; [exact G2|].
    eapply Rle_trans; [exact G3|]. fold rate. eapply Rle_trans; [apply (tail_bound rate n _ Hr)|]. apply Rplus_le_compat_r. apply Rmult_le_compat_l; [apply pow_le; lra|exact QE]. }
  assert (L1 : forall r, (r < 2 * V)%nat -> length (nth r rows []) = S dim) by (intros r Hr'; apply Word2vec.all_len_nth; auto; lia).
  destruct (pair_iter_length dim lr f coef n _ _ (L1 a ltac:(lia)) (L1 (b + V)%nat ltac:(lia))) as (P1 & P2). fold p in P1, P2.
  destruct (pair_iter_length dim lr f coef n _ _ (L1 (a + V)%nat ltac:(lia)) (L1 b ltac:(lia))) as (P3 & P4). fold q in P3, P4.
  destruct (Cells.upd2_ok (S dim) rows a (b + V) (fst p) (snd p) A P1 P2) as (A1 & LL1).
  destruct (Cells.upd2_ok (S dim) _ (a + V) b (fst q) (snd q) A1 P3 P4) as (A2 & LL2).
  exists (upd2 (upd2 rows a (b + V) (fst p) (snd p)) (a + V) b (fst q) (snd q)). split; [reflexivity|]. split; [exact A2|]. split; [lia|]. split; [exact Ha|]. split; [exact Hb|].
  destruct (nth_upd2 rows a (b + V) (fst p) (snd p) [] ltac:(lia) ltac:(lia) ltac:(lia)) as (N1 & N2 & N3).
  destruct (nth_upd2 (upd2 rows a (b + V) (fst p) (snd p)) (a + V) b (fst q) (snd q) [] ltac:(lia) ltac:(lia) ltac:(lia)) as (M1 & M2 & M3).
  intros r1 r2 [E|E]; injection E as -> ->.
  - rewrite (M3 a), (M3 (b + V)%nat) by lia. rewrite N1, N2. apply (K a (b + V)%nat); lia.
  - rewrite M1, M2. apply (K (a + V)%nat b); lia.
Qed.
Print Assumptions C115_training.

(** The text "a b" in memory, 16 dimensions and learning rate 0.001: the hypotheses of [C115_training] hold, whatever
    the logarithm and the power make of the single count, as long as they give 1. *)
Definition ab : reader := {| rd_data := bs "a b"; rd_pos := 0; rd_err := false |}.
Definition ab_words : list gostring := [bs "a"; bs "b"].
Lemma ab_readable lb : readable false lb ab ab_words.
Proof.
  split; [auto|]. split; [|split; [reflexivity|]].
  - assert (P : forall b, b = x61 \/ b = x62 -> FmtFloat.plain b).
    { intros b Hb s Hs. unfold Tokens.is_space, Tokens.space_encodings in Hs. cbn in Hs.
      repeat (destruct Hs as [<-|Hs]; [destruct Hb as [-> | ->]; discriminate|]). destruct Hs. }
    assert (W : forall b, b = x61 \/ b = x62 -> ~ Tokens.has_space [b]) by (intros b Hb; apply FmtFloat.plain_no_space; repeat constructor; auto).
    assert (B : Tokens.is_space [x20]) by (cbn; tauto).
    change (Tokens.tokens ([x61] ++ [x20] ++ [x62] ++ []) [[x61]; [x62]]).
    apply Tokens.tokens_word; [discriminate|auto|right; exists [x20]; eexists; split; [exact B|reflexivity]|].
    apply Tokens.tokens_space; [exact B|].
    apply Tokens.tokens_word; [discriminate|auto|left; reflexivity|apply Tokens.tokens_end].
  - repeat constructor; cbn; lia.
Qed.
Lemma exp_2 : exp 2 <= 9.
Proof. replace 2 with (1 + 1) by ring. rewrite exp_plus. pose proof exp_le_3. pose proof (exp_pos 1). nra. Qed.

Definition ab_opts : glv_opts := glv_new 1 [G_Dim 16; G_Initlr (f_dec 1 3); G_DocInMemory].
Definition half_rand : nat -> f64 := fun _ => f_dec 5 1.
Definition one_log : f64 -> f64 := fun _ => f_of_Z 1.
Definition one_pow : f64 -> f64 -> f64 := fun _ _ => f_of_Z 1.
Definition ab_setup := glv_setup (fun w => w) half_rand one_log one_pow (fun m => m) ab_opts ab.
Definition one_item (P : item -> bool) (r : outcome glv) : bool :=
  match r with Ret g0 => match gl_items g0 with [it] => P it | _ => false end | _ => false end.
Lemma one_item_spec (P : item -> bool) r : one_item P r = true -> exists g0 it, r = Ret g0 /\ gl_items g0 = [it] /\ P it = true.
Proof.
  destruct r as [g0| |]; try discriminate. cbn [one_item]. destruct (gl_items g0) as [|it [|]] eqn:E2; try discriminate.
  intros H. exists g0, it. auto.
Qed.
Definition between0 (a : f64) : bool := fgt a fzero && fle a (f_of_Z 1).
Lemma between0_spec a : is_fin a = true -> between0 a = true -> 0 < f2r a <= 1.
Proof.
  intros F H. unfold between0 in H. apply andb_prop in H. destruct H as (H1 & H2). apply fgt_spec in H1. apply fle_spec in H2.
  destruct (f_of_Z_exact 1) as (V1 & F1); [lia|]. destruct H1 as (_ & _ & K1). destruct H2 as (_ & _ & K2). rewrite !fkey_fin in K1, K2 by (auto; reflexivity).
  rewrite V1 in K2. rewrite fzero_r in K1. lra.
Qed.

Definition ab_pred (it : item) : bool :=
  negb (Z.eqb (it_l1 it) (it_l2 it)) && (is_fin (it_coef it) && is_fin (it_f it) && between0 (it_coef it) && between0 (it_f it)).
Lemma ab_checked : one_item ab_pred ab_setup = true.
Proof. vm_compute. reflexivity. Qed.

Example C115_case : exists g0 it,
  glv_usable (fun w => w) ab_opts ab ab_words /\ (1 <= glv_Dim ab_opts < 2 ^ 20)%Z /\ glv_SolverType ab_opts = "sgd"%string /\
  ab_setup = Ret g0 /\ gl_items g0 = [it] /\ it_l1 it <> it_l2 it /\
  let n := Z.to_nat (glv_Iter ab_opts) in
  let rate := f2r (it_coef it) * f2r (glv_Initlr ab_opts) in let start := 4 / IZR (glv_Dim ab_opts) + Rabs (f2r (it_f it)) in
  let T := start + INR n / 10 ^ 5 in let L := (3 / sqrt (IZR (glv_Dim ab_opts)) + 1) * exp T in
  small1 (it_f it) /\ is_fin (glv_Initlr ab_opts) = true /\ is_fin (it_coef it) = true /\
  0 < rate <= 1 /\ L <= 30 /\ rate * (L * L + 2 + T) <= 1 / 2 /\ n = 15%nat.
Proof.
  destruct (one_item_spec _ _ ab_checked) as (g0 & it & E0 & E1 & E2). unfold ab_pred in E2.
  apply andb_prop in E2. destruct E2 as (E2 & E3). apply andb_prop in E3. destruct E3 as (E3 & E4). apply andb_prop in E3. destruct E3 as (E3 & E5). apply andb_prop in E3. destruct E3 as (E3 & E6).
  apply between0_spec in E4; [|exact E6]. apply between0_spec in E5; [|exact E3].
  exists g0, it. split. { constructor; cbn -[Z.mul Z.pow]; auto using ab_readable; try lia; try (right; discriminate); try tauto; vm_compute; discriminate. }
  split; [cbn; lia|]. split; [reflexivity|]. split; [exact E0|]. split; [exact E1|].
  split. { apply Bool.negb_true_iff in E2. apply Z.eqb_neq in E2. exact E2. }
  change (glv_Dim ab_opts) with 16%Z. change (glv_Iter ab_opts) with 15%Z. change (Z.to_nat 15) with 15%nat. cbv zeta.
  set (fc := f2r (it_coef it)) in *. set (ff := f2r (it_f it)) in *. clearbody fc.
  assert (EL : is_fin (glv_Initlr ab_opts) = true /\ 0 < f2r (glv_Initlr ab_opts) <= / 512).
  { assert (L : fgt (glv_Initlr ab_opts) fzero && fle (glv_Initlr ab_opts) (fdiv (f_of_Z 1) (f_of_Z 512)) = true) by (vm_compute; reflexivity). apply andb_prop in L. destruct L as (L1 & L2).
    assert (F : is_fin (glv_Initlr ab_opts) = true) by (vm_compute; reflexivity). split; [exact F|].
    assert (V : fshow (fdiv (f_of_Z 1) (f_of_Z 512)) = Some (2 ^ 52, -61)%Z) by (vm_compute; reflexivity). destruct (fshow_spec _ _ _ V) as (F16 & V16).
    apply fgt_spec in L1. apply fle_spec in L2. destruct L1 as (_ & _ & L1). destruct L2 as (_ & _ & L2). rewrite !fkey_fin in L1, L2 by (auto; reflexivity).
    rewrite V16 in L2. rewrite fzero_r in L1. change (bpow radix2 (-61)) with (/ 2305843009213693952) in L2. lra. }
  destruct EL as (FL & BL). set (lr := f2r (glv_Initlr ab_opts)) in *. clearbody lr.
  replace (sqrt 16) with 4 by (symmetry; replace 16 with (4 * 4) by ring; apply sqrt_square; lra).
  rewrite (Rabs_pos_eq ff) by lra. replace (10 ^ 5) with 100000 by (cbn; ring). replace (INR 15) with 15 by (cbn; ring).
  set (T := 4 / 16 + ff + 15 / 100000). assert (TB : 0 <= T <= 5 / 4 + 1 / 1000) by (unfold T; lra). 
  assert (XB : exp T <= 9) by (eapply Rle_trans; [apply (exp_le_le T 2); lra|apply exp_2]). pose proof (exp_nonneg T ltac:(lra)) as X1.
  set (X := exp T) in *. clearbody X T.
  split. { split; [exact E6|]. fold ff. rewrite Rabs_pos_eq; lra. }
  split; [exact FL|]. split; [exact E3|]. assert (RB : 0 < fc * lr <= / 512). { split; [apply Rmult_lt_0_compat; lra|]. rewrite <- (Rmult_1_l (/ 512)). apply Rmult_le_compat; lra. } set (rate := fc * lr) in *. clearbody rate.
  split; [lra|]. split; [lra|]. split; [|reflexivity].
  set (L := (3 / 4 + 1) * X). assert (BLL : 0 <= L <= 63 / 4) by (unfold L; lra). clearbody L.
  assert (LB : L * L <= 249). { apply Rle_trans with (63 / 4 * (63 / 4)); [apply Rmult_le_compat; lra|lra]. }
  assert (M : rate * (L * L + 2 + T) <= / 512 * 256). { apply Rmult_le_compat; try lra. pose proof (Rmult_le_pos L L). lra. }
  lra.
Qed.
