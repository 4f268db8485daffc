(** * C114: GloVe and LexVec perform gradient descent on the weighted squared error of a pair *)
From Coq Require Import Lia Reals Lra List ZArith.
From Flocq Require Import Core BinarySingleNaN.
From Verif.Lib Require Import Go F64 F64Facts.
From Verif.Spec Require Import Rows Training Cells Cosine Residual Descent.
From Verif.Model Require Import Matrix Cells Glove Lexvec Options.
From Verif.Proofs Require Import Cosine SavedCosine Residual Descent.
From Verif.Proofs Require Word2vec Cells Glove Lexvec.
From Verif.Properties Require Import P35_Residual.
Import ListNotations.
Local Open Scope R_scope.

(** C114. The derivatives: with error e = vector.vector + bias + bias - f, weight * e * (the other
    row's component) for a vector component and weight * e for a bias. *)
Theorem C114_glove_slopes : forall w f r1 r2 dim i, length r1 = S dim -> length r2 = S dim -> (i <= dim)%nat ->
  let e := sum_of_products (removelast r1) (removelast r2) + last r1 0 + last r2 0 - f in
  slope (fun r => glove_cost w f r r2) r1 i (w * e * (if (i <? dim)%nat then nth i r2 0 else 1)) /\
  slope (fun r => glove_cost w f r1 r) r2 i (w * e * (if (i <? dim)%nat then nth i r1 0 else 1)).
Proof.
  intros w f r1 r2 dim i L1 L2 Hi e.
  assert (S1 : exists v b, r1 = v ++ [b] /\ length v = dim).
  { exists (removelast r1), (last r1 0). assert (N : r1 <> []) by (intros ->; discriminate L1). apply (app_removelast_last 0) in N. split; [exact N|].
    apply (f_equal (@length R)) in N. rewrite app_length in N. cbn [length] in N. lia. }
  assert (S2 : exists v b, r2 = v ++ [b] /\ length v = dim).
  { exists (removelast r2), (last r2 0). assert (N : r2 <> []) by (intros ->; discriminate L2). apply (app_removelast_last 0) in N. split; [exact N|].
    apply (f_equal (@length R)) in N. rewrite app_length in N. cbn [length] in N. lia. }
  destruct S1 as (v & b & -> & Lv). destruct S2 as (u & c & -> & Lu).
  assert (Hr : forall (l m : list R) z, length l = dim -> (if (i <? dim)%nat then nth i (l ++ [z]) 0 else 1) = if (i <? dim)%nat then nth i l 0 else 1).
  { intros l _ z Hl. destruct (Nat.ltb_spec i dim); [|reflexivity]. apply app_nth1. lia. }
  unfold e. rewrite !removelast_last, !last_last, (Hr u u c Lu), (Hr v v b Lv). change sum_of_products with rdot.
  rewrite <- Lv. split.
  - apply (glove_slope_first w f v b u c i); lia.
  - pose proof (glove_slope_first w f u c v b i ltac:(lia) ltac:(lia)) as H. unfold slope in *. rewrite Lv, <- Lu.
    replace (w * (rdot v u + b + c - f)) with (w * (rdot u v + c + b - f)) by (rewrite (rdot_sym u v); ring).
    eapply deriv_ext; [|exact H]. intros t. cbv beta. apply glove_cost_sym.
Qed.
Print Assumptions C114_glove_slopes.

Theorem C114_lexvec_slopes : forall f x y i, length x = length y -> (i < length x)%nat ->
  slope (fun r => lex_cost f r y) x i ((sum_of_products x y - f) * nth i y 0) /\
  slope (fun r => lex_cost f x r) y i ((sum_of_products x y - f) * nth i x 0).
Proof.
  intros f x y i HL Hi. change sum_of_products with rdot. split; [apply lex_slope; auto|].
  pose proof (lex_slope f y x i ltac:(lia) ltac:(lia)) as H. unfold slope in *. rewrite (rdot_sym x y).
  eapply deriv_ext; [|exact H]. intros t. cbv beta. unfold lex_cost. change sum_of_products with rdot. rewrite (rdot_sym x). reflexivity.
Qed.
Print Assumptions C114_lexvec_slopes.

(** Rows of floats. *)
Lemma row_split x dim : length x = S dim -> x = vec x ++ [bias x] /\ length (vec x) = dim.
Proof.
  intros L. assert (N : x <> []) by (intros ->; discriminate L). apply (app_removelast_last fzero) in N. split; [exact N|].
  apply (f_equal (@length f64)) in N. rewrite app_length in N. cbn [length] in N. unfold vec. lia.
Qed.
Lemma reals_row x dim : length x = S dim -> reals x = reals (vec x) ++ [f2r (bias x)].
Proof. intros L. destruct (row_split x dim L) as (E & _). rewrite E at 1. unfold reals. apply map_app. Qed.
Lemma cost_error w f x y dim : length x = S dim -> length y = S dim -> glove_cost w (f2r f) (reals x) (reals y) = w / 2 * glove_error f x y ^ 2.
Proof.
  intros Lx Ly. unfold glove_cost, glove_error. rewrite (reals_row x dim Lx), (reals_row y dim Ly), !removelast_last, !last_last, dot_r_rdot. reflexivity.
Qed.
Lemma reals_nth x i : nth i (reals x) 0 = f2r (nth i x fzero).
Proof. unfold reals. change 0 with (f2r fzero). apply map_nth. Qed.

(** The value of any derivative. *)
Lemma slope_value w f x y dim i D : length x = S dim -> length y = S dim -> (i <= dim)%nat ->
  slope (fun r => glove_cost w (f2r f) r (reals y)) (reals x) i D \/ slope (fun r => glove_cost w (f2r f) (reals y) r) (reals x) i D ->
  D = w * glove_error f x y * (if (i <? dim)%nat then f2r (nth i y fzero) else 1).
Proof.
  intros Lx Ly Hi H. destruct (C114_glove_slopes w (f2r f) (reals x) (reals y) dim i) as (H1 & _); [unfold reals; rewrite map_length; exact Lx|unfold reals; rewrite map_length; exact Ly|exact Hi|].
  assert (G : slope (fun r => glove_cost w (f2r f) r (reals y)) (reals x) i D).
  { destruct H as [H|H]; [exact H|]. unfold slope in *. eapply deriv_ext; [|exact H]. intros t. cbv beta. apply glove_cost_sym. }
  pose proof (uniqueness_limite _ _ _ _ G H1) as E. rewrite E. rewrite reals_nth. f_equal. f_equal.
  rewrite (reals_row x dim Lx), (reals_row y dim Ly), !removelast_last, !last_last. unfold glove_error. rewrite dot_r_rdot. reflexivity.
Qed.

Definition tol0 (rate : R) : R := 3 / 10000000 * rate + / 1000000000000.

Lemma sgd_side dim d x y rate e i : length x = S dim -> length y = S dim -> small (vec x) -> small (vec y) -> small1 (bias x) ->
  is_fin d = true -> Rabs (f2r d) <= 1 -> 0 <= rate <= 1 -> Rabs (f2r d - rate * e) <= tol0 rate -> (i <= dim)%nat ->
  near (rate / 10 ^ 5 + / 10 ^ 10) (f2r (nth i x fzero) - rate * e * (if (i <? dim)%nat then f2r (nth i y fzero) else 1)) (nth i (sgd_row d x y) fzero).
Proof.
  intros Lx Ly Sx Sy (Fb & Bb) Fd Hd Hr He Hi. unfold tol0 in He. replace (10 ^ 5) with 100000 by (cbn; ring). replace (10 ^ 10) with 10000000000 by (cbn; ring).
  destruct (row_split x dim Lx) as (Ex & Lvx). destruct (row_split y dim Ly) as (Ey & Lvy).
  pose proof (small_comp _ Sx) as Cx. pose proof (small_comp _ Sy) as Cy. rewrite Forall_forall in Cx, Cy. unfold sgd_row.
  assert (LS : length (step_row d (vec x) (vec y)) = dim) by (unfold step_row; rewrite Word2vec.zipw_length; lia).
  destruct (Nat.ltb_spec i dim) as [Hlt|Hge].
  - rewrite app_nth1 by lia. unfold step_row. rewrite Cells.nth_zipw by lia.
    replace (nth i x fzero) with (nth i (vec x) fzero) by (rewrite Ex at 2; rewrite app_nth1 by lia; reflexivity).
    replace (nth i y fzero) with (nth i (vec y) fzero) by (rewrite Ey at 2; rewrite app_nth1 by lia; reflexivity).
    destruct (Cx (nth i (vec x) fzero)) as (Fa & Ba); [apply nth_In; lia|]. destruct (Cy (nth i (vec y) fzero)) as (Fc & Bc); [apply nth_In; lia|].
    set (a := nth i (vec x) fzero) in *. set (c := nth i (vec y) fzero) in *. clearbody a c.
    destruct (prod_near d c (rate * e) _ Fd Fc Hd Bc He) as (Fp & Bp & Ep).
    destruct (sub_near a (fmul d c) (rate * e * f2r c) _ Fa Fp Ba ltac:(lra) Ep) as (F & E). split; [exact F|]. eapply Rle_trans; [exact E|]. lra.
  - assert (i = dim) by lia. subst i. rewrite app_nth2 by lia. rewrite LS, Nat.sub_diag. cbn [nth].
    replace (nth dim x fzero) with (bias x) by (rewrite Ex at 2; rewrite app_nth2 by lia; rewrite Lvx, Nat.sub_diag; reflexivity).
    set (b := bias x) in *. clearbody b. destruct (sub_near b d (rate * e) _ Fb Fd Bb ltac:(lra) He) as (F & E). split; [exact F|]. rewrite Rmult_1_r. eapply Rle_trans; [exact E|]. lra.
Qed.

Lemma factor_facts lr f coef x y : length x = length y -> small (vec x) -> small (vec y) ->
  small1 (bias x) -> small1 (bias y) -> small1 f -> is_fin lr = true -> is_fin coef = true ->
  let rate := f2r coef * f2r lr in 0 <= rate <= 1 -> rate * Rabs (glove_error f x y) <= 1 / 2 ->
  let d := glove_diff lr f coef x y in
  is_fin d = true /\ Rabs (f2r d) <= 1 /\ Rabs (f2r d - rate * glove_error f x y) <= tol0 rate.
Proof.
  intros HL Sx Sy Bx By Bf Fl Fc rate He Hg d. destruct (C97_glove_factor lr f coef x y HL Sx Sy Bx By Bf Fl Fc He) as (Fd & Ed). fold d rate in Fd, Ed.
  replace (10 ^ 7) with 10000000 in Ed by (cbn; ring). replace (10 ^ 12) with 1000000000000 in Ed by (cbn; ring). fold (tol0 rate) in Ed.
  split; [exact Fd|]. split; [|exact Ed]. set (e := glove_error f x y) in *. unfold tol0 in Ed.
  assert (Rabs (rate * e) <= 1 / 2) by (rewrite Rabs_mult, (Rabs_pos_eq rate) by lra; lra).
  replace (f2r d) with ((f2r d - rate * e) + rate * e) by ring. eapply Rle_trans; [apply Rabs_triang|]. lra.
Qed.

(** C114. A stochastic update of GloVe moves every component and every bias of both rows by minus the
    learning rate times the derivative of the cost at the old values. *)
Theorem C114_glove : forall dim rows r1 r2 lr f coef m', r1 <> r2 -> all_len (S dim) rows -> (r1 < length rows)%nat -> (r2 < length rows)%nat ->
  let x := nth r1 rows [] in let y := nth r2 rows [] in let rate := f2r coef * f2r lr in
  small (vec x) -> small (vec y) -> small1 (bias x) -> small1 (bias y) -> small1 f -> is_fin lr = true -> is_fin coef = true ->
  0 <= rate <= 1 -> rate * Rabs (glove_error f x y) <= 1 / 2 ->
  sgd_train_one lr (Z.of_nat r1) (Z.of_nat r2) f coef (of_rows (S dim) rows) = Ret m' ->
  exists x' y', m' = of_rows (S dim) (upd2 rows r1 r2 x' y') /\ length x' = S dim /\ length y' = S dim /\
  forall i D, (i <= dim)%nat ->
    (slope (fun r => glove_cost (f2r coef) (f2r f) r (reals y)) (reals x) i D ->
       near (rate / 10 ^ 5 + / 10 ^ 10) (f2r (nth i x fzero) - f2r lr * D) (nth i x' fzero)) /\
    (slope (fun r => glove_cost (f2r coef) (f2r f) (reals x) r) (reals y) i D ->
       near (rate / 10 ^ 5 + / 10 ^ 10) (f2r (nth i y fzero) - f2r lr * D) (nth i y' fzero)).
Proof.
  intros dim rows r1 r2 lr f coef m' Hne HA H1 H2 x y rate Sx Sy Bx By Bf Fl Fc He Hg HR.
  rewrite (Glove.sgd_lemma dim rows r1 r2 Hne HA H1 H2) in HR. fold x y in HR. injection HR as <-.
  assert (Lx : length x = S dim) by (apply Word2vec.all_len_nth; auto). assert (Ly : length y = S dim) by (apply Word2vec.all_len_nth; auto).
  destruct (factor_facts lr f coef x y ltac:(congruence) Sx Sy Bx By Bf Fl Fc He Hg) as (Fd & BE & Ed). fold rate in Ed.
  set (d := glove_diff lr f coef x y) in *. exists (sgd_row d x y), (sgd_row d y x). split; [reflexivity|].
  assert (LS : forall a b, length a = S dim -> length b = S dim -> length (sgd_row d a b) = S dim).
  { intros a b La Lb. unfold sgd_row, step_row. rewrite app_length, Word2vec.zipw_length; rewrite !(Cells.vec_length _ dim) by assumption; [cbn [length]; lia|reflexivity]. }
  split; [auto|]. split; [auto|]. intros i D Hi. clearbody d. split; intros HD.
  - rewrite (slope_value (f2r coef) f x y dim i D Lx Ly Hi (or_introl HD)).
    replace (f2r lr * (f2r coef * glove_error f x y * (if (i <? dim)%nat then f2r (nth i y fzero) else 1)))
      with (rate * glove_error f x y * (if (i <? dim)%nat then f2r (nth i y fzero) else 1)) by (unfold rate; ring).
    apply sgd_side; auto.
  - rewrite (slope_value (f2r coef) f y x dim i D Ly Lx Hi (or_intror HD)).
    assert (GE : glove_error f y x = glove_error f x y) by (unfold glove_error; rewrite !dot_r_rdot, rdot_sym; ring). rewrite GE.
    replace (f2r lr * (f2r coef * glove_error f x y * (if (i <? dim)%nat then f2r (nth i x fzero) else 1)))
      with (rate * glove_error f x y * (if (i <? dim)%nat then f2r (nth i x fzero) else 1)) by (unfold rate; ring).
    apply sgd_side; auto.
Qed.
Print Assumptions C114_glove.

(** C114. AdaGrad: to every accumulator the square of learning rate * derivative is added, and the
    component moves by minus learning rate * derivative, divided by the square root of the new
    accumulator; the bias by the square root of its old one. *)
Theorem C114_adagrad : forall dim rows gs r1 r2 lr f coef m' g2, r1 <> r2 -> all_len (S dim) rows -> all_len (S dim) gs -> length gs = length rows ->
  (r1 < length rows)%nat -> (r2 < length rows)%nat ->
  let x := nth r1 rows [] in let y := nth r2 rows [] in let g := nth r1 gs [] in let h := nth r2 gs [] in let rate := f2r coef * f2r lr in
  small (vec x) -> small (vec y) -> small1 (bias x) -> small1 (bias y) -> small1 f -> is_fin lr = true -> is_fin coef = true ->
  0 <= rate <= 1 -> rate * Rabs (glove_error f x y) <= 1 / 2 ->
  (forall q, In q g \/ In q h -> is_fin q = true /\ 1 <= f2r q <= 1000000) ->
  ada_train_one lr (Z.of_nat r1) (Z.of_nat r2) f coef (of_rows (S dim) rows, of_rows (S dim) gs) = Ret (m', g2) ->
  exists x' y' g' h', m' = of_rows (S dim) (upd2 rows r1 r2 x' y') /\ g2 = of_rows (S dim) (upd2 gs r1 r2 g' h') /\
  length x' = S dim /\ length y' = S dim /\ length g' = S dim /\ length h' = S dim /\
  forall i D, (i <= dim)%nat ->
    let scale (q : f64) := sqrt (if (i <? dim)%nat then f2r q + (f2r lr * D) ^ 2 else f2r q) in
    (slope (fun r => glove_cost (f2r coef) (f2r f) r (reals y)) (reals x) i D ->
       near (rate / 10 ^ 3 + / 10 ^ 8) (f2r (nth i g fzero) + (f2r lr * D) ^ 2) (nth i g' fzero) /\
       near (rate / 10 ^ 4 + 2 / 10 ^ 7) (f2r (nth i x fzero) - f2r lr * D / scale (nth i g fzero)) (nth i x' fzero)) /\
    (slope (fun r => glove_cost (f2r coef) (f2r f) (reals x) r) (reals y) i D ->
       near (rate / 10 ^ 3 + / 10 ^ 8) (f2r (nth i h fzero) + (f2r lr * D) ^ 2) (nth i h' fzero) /\
       near (rate / 10 ^ 4 + 2 / 10 ^ 7) (f2r (nth i y fzero) - f2r lr * D / scale (nth i h fzero)) (nth i y' fzero)).
Proof.
  intros dim rows gs r1 r2 lr f coef m' g2 Hne HA HG HL H1 H2 x y g h rate Sx Sy Bx By Bf Fl Fc He Hg HQ HR.
  rewrite (Glove.ada_lemma dim rows r1 r2 Hne HA H1 H2 lr f coef gs HG HL) in HR. fold x y g h in HR. injection HR as <- <-.
  assert (Lx : length x = S dim) by (apply Word2vec.all_len_nth; auto). assert (Ly : length y = S dim) by (apply Word2vec.all_len_nth; auto).
  assert (Lg : length g = S dim) by (apply Word2vec.all_len_nth; auto; lia). assert (Lh : length h = S dim) by (apply Word2vec.all_len_nth; auto; lia).
  destruct (factor_facts lr f coef x y ltac:(congruence) Sx Sy Bx By Bf Fl Fc He Hg) as (Fd & BE & Ed). fold rate in Ed.
  set (d := glove_diff lr f coef x y) in *. exists (ada_row d x y g), (ada_row d y x h), (ada_acc d g y), (ada_acc d h x).
  split; [reflexivity|]. split; [reflexivity|]. split; [apply Glove.ada_row_length; auto|]. split; [apply Glove.ada_row_length; auto|].
  split; [apply Glove.ada_acc_length; auto|]. split; [apply Glove.ada_acc_length; auto|].
  assert (Side : forall (a b q : list f64) i D, length a = S dim -> length b = S dim -> length q = S dim -> small (vec a) -> small (vec b) -> small1 (bias a) ->
    (forall z : f64, In z q -> is_fin z = true /\ 1 <= f2r z <= 1000000) -> (i <= dim)%nat ->
    f2r lr * D = rate * glove_error f x y * (if (i <? dim)%nat then f2r (nth i b fzero) else 1) ->
    near (rate / 10 ^ 3 + / 10 ^ 8) (f2r (nth i q fzero) + (f2r lr * D) ^ 2) (nth i (ada_acc d q b) fzero) /\
    near (rate / 10 ^ 4 + 2 / 10 ^ 7) (f2r (nth i a fzero) - f2r lr * D / sqrt (if (i <? dim)%nat then f2r (nth i q fzero) + (f2r lr * D) ^ 2 else f2r (nth i q fzero))) (nth i (ada_row d a b q) fzero)).
  { clear - Fd BE Ed He Hg. intros a b q i D La Lb Lq Sa Sb (Fb & Bb) HQ Hi ED. rewrite ED. set (e := glove_error f x y) in *. clearbody e d. unfold tol0 in Ed. clear ED.
    replace (10 ^ 3) with 1000 by (cbn; ring). replace (10 ^ 8) with 100000000 by (cbn; ring). replace (10 ^ 4) with 10000 by (cbn; ring). replace (10 ^ 7) with 10000000 by (cbn; ring).
    rewrite (Glove.ada_row_nth dim) by (auto; lia). rewrite !(Glove.ada_acc_nth dim) by (auto; lia).
    destruct (row_split a dim La) as (Ea & Lva). destruct (row_split b dim Lb) as (Eb & Lvb).
    pose proof (small_comp _ Sa) as Ca. pose proof (small_comp _ Sb) as Cb. rewrite Forall_forall in Ca, Cb.
    destruct (HQ (nth i q fzero)) as (Fq & Bq); [apply nth_In; lia|]. set (qi := nth i q fzero) in *. clearbody qi.
    destruct (Nat.ltb_spec i dim) as [Hlt|Hge].
    - assert (Na : nth i a fzero = nth i (vec a) fzero) by (rewrite Ea at 1; rewrite app_nth1 by lia; reflexivity).
      assert (Nb : nth i b fzero = nth i (vec b) fzero) by (rewrite Eb at 1; rewrite app_nth1 by lia; reflexivity).
      destruct (Ca (nth i (vec a) fzero)) as (Fa & Ba); [apply nth_In; lia|]. destruct (Cb (nth i (vec b) fzero)) as (Fc & Bc); [apply nth_In; lia|].
      rewrite <- Na in Fa, Ba. rewrite <- Nb in Fc, Bc. set (ai := nth i a fzero) in *. set (bi := nth i b fzero) in *. clearbody ai bi.
      destruct (prod_near d bi (rate * e) _ Fd Fc BE Bc Ed) as (Fp & Bp & Ep).
      set (s := rate * e * f2r bi) in *. replace (s ^ 2) with (s * s) by ring. clearbody s.
      destruct (acc_near qi (fmul d bi) s _ Fq Fp Bq Bp Ep ltac:(lra)) as (F1 & _ & _ & E1).
      destruct (ada_quot qi (fmul d bi) s _ Fq Fp Bq Bp Ep ltac:(lra)) as (F2 & B2 & E2).
      split; [split; [exact F1|]; eapply Rle_trans; [exact E1|]; lra|].
      destruct (sub_near ai _ _ _ Fa F2 Ba ltac:(lra) E2) as (F3 & E3). split; [exact F3|]. eapply Rle_trans; [exact E3|]. lra.
    - assert (i = dim) by lia. subst i.
      assert (Na : nth dim a fzero = bias a) by (rewrite Ea at 1; rewrite app_nth2 by lia; rewrite Lva, Nat.sub_diag; reflexivity). rewrite Na. clear Na.
      set (b0 := bias a) in *. clearbody b0. rewrite Rmult_1_r. set (s := rate * e) in *. replace (s ^ 2) with (s * s) by ring. clearbody s.
      destruct (acc_near qi d s _ Fq Fd Bq ltac:(lra) Ed ltac:(lra)) as (F1 & _ & _ & E1).
      destruct (ada_quot_old qi d s _ Fq Fd Bq ltac:(lra) Ed ltac:(lra)) as (F2 & B2 & E2).
      split; [split; [exact F1|]; eapply Rle_trans; [exact E1|]; lra|].
      destruct (sub_near b0 _ _ _ Fb F2 Bb ltac:(lra) E2) as (F3 & E3). split; [exact F3|]. eapply Rle_trans; [exact E3|]. lra. }
  clearbody d. intros i D Hi scale. unfold scale. split; intros HD.
  - apply Side; auto.
    rewrite (slope_value (f2r coef) f x y dim i D Lx Ly Hi (or_introl HD)). unfold rate. ring.
  - apply Side; auto.
    rewrite (slope_value (f2r coef) f y x dim i D Ly Lx Hi (or_intror HD)).
    assert (GE : glove_error f y x = glove_error f x y) by (unfold glove_error; rewrite !dot_r_rdot, rdot_sym; ring). rewrite GE. unfold rate. ring.
Qed.
Print Assumptions C114_adagrad.

(** C114. LexVec, on two different rows. *)
Theorem C114_lexvec : forall dim rows a b lr f m', a <> b -> all_len dim rows -> (a < length rows)%nat -> (b < length rows)%nat ->
  let x := nth a rows [] in let y := nth b rows [] in
  small x -> small y -> small1 f -> is_fin lr = true ->
  0 <= f2r lr <= 1 -> f2r lr * Rabs (lex_error f x y) <= 1 / 2 ->
  lex_update (Z.of_nat dim) lr (Z.of_nat a) (Z.of_nat b) f (of_rows dim rows) = Ret m' ->
  exists x' y', m' = of_rows dim (upd2 rows a b x' y') /\ length x' = dim /\ length y' = dim /\
  forall i D, (i < dim)%nat ->
    (slope (fun r => lex_cost (f2r f) r (reals y)) (reals x) i D ->
       near (f2r lr / 10 ^ 5 + / 10 ^ 10) (f2r (nth i x fzero) - f2r lr * D) (nth i x' fzero)) /\
    (slope (fun r => lex_cost (f2r f) (reals x) r) (reals y) i D ->
       near (f2r lr / 10 ^ 5 + / 10 ^ 10) (f2r (nth i y fzero) - f2r lr * D) (nth i y' fzero)).
Proof.
  intros dim rows a b lr f m' Hne HA H1 H2 x y Sx Sy (Ff & Bf) Fl He Hg HR.
  rewrite (Lexvec.update_lemma dim lr rows a b f HA H1 H2) in HR. unfold lex_step in HR. cbv zeta in HR. fold x y in HR. apply Nat.eqb_neq in Hne. rewrite Hne in HR. injection HR as <-.
  set (d := fmul (fsub (dot x y) f) lr) in *. exists (step_row d x y), (step_row d y x). split; [reflexivity|].
  assert (Lx : length x = dim) by (apply Word2vec.all_len_nth; auto). assert (Ly : length y = dim) by (apply Word2vec.all_len_nth; auto).
  destruct (dot_near x y ltac:(congruence) Sx Sy) as (Fs & Es & Bd & _ & _ & _).
  set (e := lex_error f x y) in *. set (rate := f2r lr) in *.
  assert (Ed : is_fin d = true /\ Rabs (f2r d - rate * e) <= 3 / 10000000 * rate + / 1000000000000).
  { apply Rabs_le_inv in Es, Bd, Bf. assert (A1 : Rabs (f2r (dot x y) - f2r f) <= 4096) by (apply Rabs_le; lra).
    destruct (fsub_fin _ f Fs Ff (no_overflow _ A1)) as (V1 & G1). pose proof (rnd_near _ A1) as E1. rewrite <- V1 in E1. apply Rabs_le_inv in E1.
    apply factor; auto; unfold e, lex_error; try (apply Rabs_le; lra). fold rate. replace (rate - rate) with 0 by ring. rewrite Rabs_R0.
    pose proof tiny_val. pose proof uu_pos. assert (0 <= uu * rate) by (apply Rmult_le_pos; lra). lra. }
  destruct Ed as (Fd & Ed).
  assert (BE : Rabs (f2r d) <= 1).
  { assert (Rabs (rate * e) <= 1 / 2) by (rewrite Rabs_mult, (Rabs_pos_eq rate) by lra; lra).
    replace (f2r d) with ((f2r d - rate * e) + rate * e) by ring. eapply Rle_trans; [apply Rabs_triang|]. lra. }
  split; [unfold step_row; rewrite Word2vec.zipw_length; congruence|]. split; [unfold step_row; rewrite Word2vec.zipw_length; congruence|].
  assert (Side : forall (u v : list f64) i D, length u = dim -> length v = dim -> small u -> small v -> (i < dim)%nat -> rate * D = rate * e * f2r (nth i v fzero) ->
    near (rate / 10 ^ 5 + / 10 ^ 10) (f2r (nth i u fzero) - rate * D) (nth i (step_row d u v) fzero)).
  { clear - Fd BE Ed He. intros u v i D Lu Lv Su Sv Hi ED. rewrite ED. clear ED. replace (10 ^ 5) with 100000 by (cbn; ring). replace (10 ^ 10) with 10000000000 by (cbn; ring).
    clearbody d e. pose proof (small_comp _ Su) as Cu. pose proof (small_comp _ Sv) as Cv. rewrite Forall_forall in Cu, Cv. unfold step_row. rewrite Cells.nth_zipw by lia.
    destruct (Cu (nth i u fzero)) as (Fa & Ba); [apply nth_In; lia|]. destruct (Cv (nth i v fzero)) as (Fc & Bc); [apply nth_In; lia|].
    set (p := nth i u fzero) in *. set (c := nth i v fzero) in *. clearbody p c.
    destruct (prod_near d c (rate * e) _ Fd Fc BE Bc Ed) as (Fp & Bp & Ep).
    destruct (sub_near p (fmul d c) (rate * e * f2r c) _ Fa Fp Ba ltac:(lra) Ep) as (F & E). split; [exact F|]. eapply Rle_trans; [exact E|]. lra. }
  clearbody d. intros i D Hi.
  assert (LR : forall z, length (reals z) = length z) by (intros z; apply map_length).
  destruct (C114_lexvec_slopes (f2r f) (reals x) (reals y) i ltac:(rewrite !LR; congruence) ltac:(rewrite LR; lia)) as (S1 & S2).
  assert (EE : sum_of_products (reals x) (reals y) - f2r f = e) by (unfold e, lex_error; rewrite dot_r_rdot; reflexivity). rewrite EE, reals_nth in S1, S2.
  split; intros HD.
  - apply Side; auto. rewrite (uniqueness_limite _ _ _ _ HD S1). ring.
  - apply Side; auto. rewrite (uniqueness_limite _ _ _ _ HD S2). ring.
Qed.
Print Assumptions C114_lexvec.

(** C114. So, for a rate that is not too large (C97) and a cost that is not already negligible, the
    stochastic update lowers the cost. *)
Theorem C114_glove_descends : forall dim rows r1 r2 lr f coef m', r1 <> r2 -> all_len (S dim) rows -> (r1 < length rows)%nat -> (r2 < length rows)%nat ->
  let x := nth r1 rows [] in let y := nth r2 rows [] in let rate := f2r coef * f2r lr in
  small (vec x) -> small (vec y) -> small1 (bias x) -> small1 (bias y) -> small1 f -> is_fin lr = true -> is_fin coef = true ->
  gentle rate (glove_size x y) (glove_error f x y) -> 0 < f2r coef -> 2 / 10 ^ 6 < rate * glove_size x y * Rabs (glove_error f x y) ->
  sgd_train_one lr (Z.of_nat r1) (Z.of_nat r2) f coef (of_rows (S dim) rows) = Ret m' ->
  exists x' y', m' = of_rows (S dim) (upd2 rows r1 r2 x' y') /\
    glove_cost (f2r coef) (f2r f) (reals x') (reals y') < glove_cost (f2r coef) (f2r f) (reals x) (reals y).
Proof.
  intros dim rows r1 r2 lr f coef m' Hne HA H1 H2 x y rate Sx Sy Bx By Bf Fl Fc HG Hc Hbig HR.
  destruct (C97_glove dim rows r1 r2 lr f coef m' Hne HA H1 H2 Sx Sy Bx By Bf Fl Fc HG HR) as (x' & y' & E & Lx' & Ly' & L). exists x', y'. split; [exact E|].
  assert (Lx : length x = S dim) by (apply Word2vec.all_len_nth; auto). assert (Ly : length y = S dim) by (apply Word2vec.all_len_nth; auto).
  rewrite (cost_error _ f x y dim), (cost_error _ f x' y' dim) by auto. fold x y rate in L.
  apply Rmult_lt_compat_l; [lra|]. rewrite <- !Rsqr_pow2. apply Rsqr_lt_abs_1.
  replace (10 ^ 6) with 1000000 in * by (cbn; ring). lra.
Qed.
Print Assumptions C114_glove_descends.

Theorem C114_lexvec_descends : forall dim rows a b lr f m', a <> b -> all_len dim rows -> (a < length rows)%nat -> (b < length rows)%nat ->
  let x := nth a rows [] in let y := nth b rows [] in
  small x -> small y -> small1 f -> is_fin lr = true ->
  gentle (f2r lr) (lex_size x y) (lex_error f x y) -> 2 / 10 ^ 6 < f2r lr * lex_size x y * Rabs (lex_error f x y) ->
  lex_update (Z.of_nat dim) lr (Z.of_nat a) (Z.of_nat b) f (of_rows dim rows) = Ret m' ->
  exists x' y', m' = of_rows dim (upd2 rows a b x' y') /\ lex_cost (f2r f) (reals x') (reals y') < lex_cost (f2r f) (reals x) (reals y).
Proof.
  intros dim rows a b lr f m' Hne HA H1 H2 x y Sx Sy Bf Fl HG Hbig HR.
  destruct (C97_lexvec dim rows a b lr f m' Hne HA H1 H2 Sx Sy Bf Fl HG HR) as (x' & y' & E & Lx' & Ly' & L). exists x', y'. split; [exact E|]. fold x y in L.
  assert (CE : forall u v, lex_cost (f2r f) (reals u) (reals v) = / 2 * lex_error f u v ^ 2) by (intros u v; unfold lex_cost, lex_error; rewrite dot_r_rdot; reflexivity).
  rewrite !CE. apply Rmult_lt_compat_l; [lra|]. rewrite <- !Rsqr_pow2. apply Rsqr_lt_abs_1.
  replace (10 ^ 6) with 1000000 in * by (cbn; ring). lra.
Qed.
Print Assumptions C114_lexvec_descends.

(** Non-vacuous: GloVe with its default learning rate on the vectors (1) and (2) with biases 0, value 1
    and weight 1, and accumulators 1. *)
Example C114_case : let lr := glv_Initlr (glv_new 1 []) in let x := [f_of_Z 1; fzero] in let y := [f_of_Z 2; fzero] in let f := f_of_Z 1 in let coef := f_of_Z 1 in
  let rows := [x; y] in let g := [f_of_Z 1; f_of_Z 1] in
  small (vec x) /\ small (vec y) /\ small1 (bias x) /\ small1 (bias y) /\ small1 f /\ is_fin lr = true /\ is_fin coef = true /\
  0 <= f2r coef * f2r lr <= 1 /\ f2r coef * f2r lr * Rabs (glove_error f x y) <= 1 / 2 /\
  (forall q, In q g -> is_fin q = true /\ 1 <= f2r q <= 1000000) /\
  (exists m, sgd_train_one lr 0 1 f coef (of_rows 2 rows) = Ret m) /\
  (exists m g2, ada_train_one lr 0 1 f coef (of_rows 2 rows, of_rows 2 [g; g]) = Ret (m, g2)).
Proof.
  cbv zeta. pose proof C97_case as H. cbv zeta in H. destruct H as (A1 & A2 & A3 & A4 & A5 & A6 & A7 & A8 & A9).
  destruct A8 as (B1 & B2). repeat (split; [assumption|]).
  destruct (f_of_Z_exact 1) as (V1 & F1); [lia|].
  assert (G7 : glove_size [f_of_Z 1; fzero] [f_of_Z 2; fzero] = 7). { destruct (f_of_Z_exact 2) as (V2 & F2); [lia|]. unfold glove_size, dot_r, vec. cbn [removelast combine map fold_right fst snd]. rewrite V1, V2. ring. }
  rewrite G7, A9 in B2. rewrite A9. set (r := f2r (f_of_Z 1) * f2r (glv_Initlr (glv_new 1 []))) in *. clearbody r.
  split; [rewrite Rabs_R1 in *; lra|]. clear B2.
  split. { intros q [<-|[<-|[]]]; (split; [exact F1|rewrite V1; lra]). }
  assert (AL : forall a b c d : f64, all_len 2 [[a; b]; [c; d]]) by (intros; repeat constructor).
  split.
  - eexists. apply (Glove.sgd_lemma 1 [[f_of_Z 1; fzero]; [f_of_Z 2; fzero]] 0 1); [lia|apply AL|cbn [length]; lia|cbn [length]; lia].
  - eexists. eexists. apply (Glove.ada_lemma 1 [[f_of_Z 1; fzero]; [f_of_Z 2; fzero]] 0 1); [lia|apply AL|cbn [length]; lia|cbn [length]; lia|apply AL|reflexivity].
Qed.
