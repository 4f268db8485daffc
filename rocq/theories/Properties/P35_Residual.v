(** * C97: a training step of GloVe (stochastic) and LexVec brings a pair closer to its value *)
From Coq Require Import Lia Reals Lra List ZArith.
From Flocq Require Import Core BinarySingleNaN.
From Verif.Lib Require Import Go F64 F64Facts.
From Verif.Spec Require Import Rows Training Cells Cosine Residual.
From Verif.Model Require Import Matrix Cells Glove Lexvec Options.
From Verif.Proofs Require Import Cosine Residual.
From Verif.Proofs Require Glove Lexvec.
Import ListNotations.
Local Open Scope R_scope.

(** C97. The factor of a GloVe update is coef * rate * error, with the error
    vector.vector + bias + bias - f taken in exact arithmetic, up to rounding. *)
Theorem C97_glove_factor : forall lr f coef x y, length x = length y -> small (vec x) -> small (vec y) ->
  small1 (bias x) -> small1 (bias y) -> small1 f -> is_fin lr = true -> is_fin coef = true -> 0 <= f2r coef * f2r lr <= 1 ->
  is_fin (glove_diff lr f coef x y) = true /\
  Rabs (f2r (glove_diff lr f coef x y) - f2r coef * f2r lr * glove_error f x y) <= 3 / 10 ^ 7 * (f2r coef * f2r lr) + / 10 ^ 12.
Proof.
  intros lr f coef x y HL Sx Sy (F1 & B1) (F2 & B2) (Ff & Bf) Fl Fc He.
  assert (HV : length (vec x) = length (vec y)).
  { destruct x as [|a x], y as [|b y]; try discriminate HL; [reflexivity|]. unfold vec. assert (N1 : a :: x <> []) by discriminate. assert (N2 : b :: y <> []) by discriminate.
    apply (app_removelast_last fzero) in N1. apply (app_removelast_last fzero) in N2.
    apply (f_equal (@length f64)) in N1. apply (f_equal (@length f64)) in N2. rewrite app_length in N1, N2. cbn [length] in *. lia. }
  destruct (dot_near (vec x) (vec y) HV Sx Sy) as (Fd & Ed & Bd & _).
  unfold glove_diff, glove_error. set (b1 := bias x) in *. set (b2 := bias y) in *. set (s := dot (vec x) (vec y)) in *. set (D := dot_r (vec x) (vec y)) in *. clearbody b1 b2 s D.
  apply Rabs_le_inv in B1, B2, Bf, Bd, Ed.
  assert (A1 : Rabs (f2r b1 + f2r b2) <= 4096) by (apply Rabs_le; lra). destruct (fadd_fin b1 b2 F1 F2 (no_overflow _ A1)) as (V1 & G1).
  pose proof (rnd_near _ A1) as E1. rewrite <- V1 in E1. apply Rabs_le_inv in E1.
  assert (A2 : Rabs (f2r (fadd b1 b2) - f2r f) <= 4096) by (apply Rabs_le; lra). destruct (fsub_fin _ f G1 Ff (no_overflow _ A2)) as (V2 & G2).
  pose proof (rnd_near _ A2) as E2. rewrite <- V2 in E2. apply Rabs_le_inv in E2.
  assert (A3 : Rabs (f2r s + f2r (fsub (fadd b1 b2) f)) <= 4096) by (apply Rabs_le; lra). destruct (fadd_fin s _ Fd G2 (no_overflow _ A3)) as (V3 & G3).
  pose proof (rnd_near _ A3) as E3. rewrite <- V3 in E3. apply Rabs_le_inv in E3.
  set (c := f2r coef * f2r lr) in *.
  assert (A4 : Rabs (f2r coef * f2r lr) <= 4096) by (apply Rabs_le; fold c; lra). destruct (fmul_fin coef lr Fc Fl (no_overflow _ A4)) as (V4 & G4).
  pose proof (rnd_abs_err c) as E4. rewrite (Rabs_pos_eq c) in E4 by lra. unfold c in E4. rewrite <- V4 in E4. fold c in E4.
  destruct (factor (fadd s (fsub (fadd b1 b2) f)) (fmul coef lr) (D + f2r b1 + f2r b2 - f2r f) c G3 G4) as (K1 & K2); [apply Rabs_le; lra|apply Rabs_le; lra|exact He|exact E4|].
  split; [exact K1|]. replace (10 ^ 7) with 10000000 by (cbn; ring). replace (10 ^ 12) with 1000000000000 by (cbn; ring). exact K2.
Qed.
Print Assumptions C97_glove_factor.

(** The same on rows. *)
Lemma glove_rows dim lr f coef x y : length x = S dim -> length y = S dim -> let rate := f2r coef * f2r lr in
  small (vec x) -> small (vec y) -> small1 (bias x) -> small1 (bias y) -> small1 f -> is_fin lr = true -> is_fin coef = true ->
  gentle rate (glove_size x y) (glove_error f x y) ->
  let d := glove_diff lr f coef x y in
  Rabs (glove_error f (sgd_row d x y) (sgd_row d y x)) <= (1 - rate * glove_size x y / 2) * Rabs (glove_error f x y) + / 10 ^ 6.
Proof.
  intros Lx Ly rate Sx Sy Bx By Bf Fl Fc (He & Hg) d.
  destruct (C97_glove_factor lr f coef x y ltac:(congruence) Sx Sy Bx By Bf Fl Fc He) as (Fd & Ed). fold d in Fd, Ed. fold rate in Ed.
  replace (10 ^ 7) with 10000000 in Ed by (cbn; ring). replace (10 ^ 12) with 1000000000000 in Ed by (cbn; ring).
  assert (LV : length (vec x) = length (vec y)) by (rewrite !(Cells.vec_length _ dim) by assumption; reflexivity).
  destruct (dot_near (vec x) (vec y) LV Sx Sy) as (_ & _ & Bd & Px & Py & CS).
  set (e := glove_error f x y) in *. set (size := glove_size x y) in *.
  assert (BE : Rabs (f2r d) <= 1).
  { assert (Rabs (rate * e) <= 1 / 2).
    { rewrite Rabs_mult, (Rabs_pos_eq rate) by lra. assert (0 <= rate * size) by (apply Rmult_le_pos; [lra|unfold size, glove_size; lra]). lra. }
    replace (f2r d) with ((f2r d - rate * e) + rate * e) by ring. eapply Rle_trans; [apply Rabs_triang|]. lra. }
  pose proof (vec_step (vec x) (vec y) d LV Sx Sy Fd BE) as HV.
  pose proof (shrink rate e size (dot_r (vec x) (vec y)) (f2r d) He ltac:(unfold size, glove_size; lra) ltac:(unfold size, glove_size; lra) Hg Ed) as HS.
  destruct Bx as (F1 & B1). destruct By as (F2 & B2). destruct Bf as (Ff & B3). apply Rabs_le_inv in B1, B2, B3, BE.
  set (K := (1 - rate * size / 2) * Rabs e) in *. clearbody K. clear Ed Hg. unfold e, size, glove_error, glove_size in HS. clear e size.
  assert (V0 : vec (sgd_row d x y) = step_row d (vec x) (vec y) /\ vec (sgd_row d y x) = step_row d (vec y) (vec x) /\
               bias (sgd_row d x y) = fsub (bias x) d /\ bias (sgd_row d y x) = fsub (bias y) d).
  { split; [apply removelast_last|]. split; [apply removelast_last|]. split; apply last_last. }
  destruct V0 as (W1 & W2 & W3 & W4). unfold glove_error. rewrite W1, W2, W3, W4.
  assert (A1 : Rabs (f2r (bias x) - f2r d) <= 4096) by (apply Rabs_le; lra). destruct (fsub_fin _ d F1 Fd (no_overflow _ A1)) as (V1 & _).
  assert (A2 : Rabs (f2r (bias y) - f2r d) <= 4096) by (apply Rabs_le; lra). destruct (fsub_fin _ d F2 Fd (no_overflow _ A2)) as (V2 & _).
  pose proof (rnd_near _ A1) as E1. pose proof (rnd_near _ A2) as E2. rewrite <- V1 in E1. rewrite <- V2 in E2. apply Rabs_le_inv in E1, E2, HV, HS.
  replace (10 ^ 6) with 1000000 by (cbn; ring). apply Rabs_le. lra.
Qed.
(** C97. If rate * coef * (size + |error|) is at most 1/2, a stochastic update shrinks the error of
    the pair: by the factor 1 - rate*coef*size/2 <= 1 - rate*coef, up to a millionth. *)
Theorem C97_glove : forall dim rows r1 r2 lr f coef m', r1 <> r2 -> all_len (S dim) rows -> (r1 < length rows)%nat -> (r2 < length rows)%nat ->
  let x := nth r1 rows [] in let y := nth r2 rows [] in let rate := f2r coef * f2r lr in
  small (vec x) -> small (vec y) -> small1 (bias x) -> small1 (bias y) -> small1 f -> is_fin lr = true -> is_fin coef = true ->
  gentle rate (glove_size x y) (glove_error f x y) ->
  sgd_train_one lr (Z.of_nat r1) (Z.of_nat r2) f coef (of_rows (S dim) rows) = Ret m' ->
  exists x' y', m' = of_rows (S dim) (upd2 rows r1 r2 x' y') /\ length x' = S dim /\ length y' = S dim /\
    Rabs (glove_error f x' y') <= (1 - rate * glove_size x y / 2) * Rabs (glove_error f x y) + / 10 ^ 6.
Proof.
  intros dim rows r1 r2 lr f coef m' Hne HA H1 H2 x y rate Sx Sy Bx By Bf Fl Fc HG HR.
  rewrite (Glove.sgd_lemma dim rows r1 r2 Hne HA H1 H2) in HR. fold x y in HR. injection HR as <-.
  assert (Lx : length x = S dim) by (apply Word2vec.all_len_nth; auto). assert (Ly : length y = S dim) by (apply Word2vec.all_len_nth; auto).
  pose proof (glove_rows dim lr f coef x y Lx Ly Sx Sy Bx By Bf Fl Fc HG) as E. cbv zeta in E.
  set (d := glove_diff lr f coef x y) in *. exists (sgd_row d x y), (sgd_row d y x). split; [reflexivity|].
  split; [apply Cells.sgd_row_length; auto|]. split; [apply Cells.sgd_row_length; auto|]. exact E.
Qed.
Print Assumptions C97_glove.

(** C97. The same for an update of LexVec on two different rows, without biases. *)
Theorem C97_lexvec : forall dim rows a b lr f m', a <> b -> all_len dim rows -> (a < length rows)%nat -> (b < length rows)%nat ->
  let x := nth a rows [] in let y := nth b rows [] in
  small x -> small y -> small1 f -> is_fin lr = true ->
  gentle (f2r lr) (lex_size x y) (lex_error f x y) ->
  lex_update (Z.of_nat dim) lr (Z.of_nat a) (Z.of_nat b) f (of_rows dim rows) = Ret m' ->
  exists x' y', m' = of_rows dim (upd2 rows a b x' y') /\ length x' = dim /\ length y' = dim /\
    Rabs (lex_error f x' y') <= (1 - f2r lr * lex_size x y / 2) * Rabs (lex_error f x y) + / 10 ^ 6.
Proof.
  intros dim rows a b lr f m' Hne HA H1 H2 x y Sx Sy (Ff & Bf) Fl (He & Hg) HR.
  rewrite (Lexvec.update_lemma dim lr rows a b f HA H1 H2) in HR. unfold lex_step in HR. cbv zeta in HR. fold x y in HR. apply Nat.eqb_neq in Hne. rewrite Hne in HR. injection HR as <-.
  set (d := fmul (fsub (dot x y) f) lr) in *. exists (step_row d x y), (step_row d y x). split; [reflexivity|].
  assert (Lx : length x = dim) by (apply Word2vec.all_len_nth; auto). assert (Ly : length y = dim) by (apply Word2vec.all_len_nth; auto).
  assert (LV : length x = length y) by congruence.
  split; [rewrite Cells.step_row_length; auto|]. split; [rewrite Cells.step_row_length; auto|].
  destruct (dot_near x y LV Sx Sy) as (Fs & Es & Bd & Px & Py & CS).
  set (e := lex_error f x y) in *. set (size := lex_size x y) in *. set (rate := f2r lr) in *.
  assert (Ed : is_fin d = true /\ Rabs (f2r d - rate * e) <= 3 / 10000000 * rate + / 1000000000000).
  { apply Rabs_le_inv in Es, Bd, Bf. assert (A1 : Rabs (f2r (dot x y) - f2r f) <= 4096) by (apply Rabs_le; lra).
    destruct (fsub_fin _ f Fs Ff (no_overflow _ A1)) as (V1 & G1). pose proof (rnd_near _ A1) as E1. rewrite <- V1 in E1. apply Rabs_le_inv in E1.
    apply factor; auto; unfold e, lex_error; try (apply Rabs_le; lra). fold rate. replace (rate - rate) with 0 by ring. rewrite Rabs_R0.
    pose proof tiny_val. pose proof uu_pos. assert (0 <= uu * rate) by (apply Rmult_le_pos; lra). lra. }
  destruct Ed as (Fd & Ed).
  assert (BE : Rabs (f2r d) <= 1).
  { assert (Rabs (rate * e) <= 1 / 2).
    { rewrite Rabs_mult, (Rabs_pos_eq rate) by lra. assert (0 <= rate * size) by (apply Rmult_le_pos; [lra|unfold size, lex_size; lra]). lra. }
    replace (f2r d) with ((f2r d - rate * e) + rate * e) by ring. eapply Rle_trans; [apply Rabs_triang|]. lra. }
  pose proof (vec_step x y d LV Sx Sy Fd BE) as HV.
  pose proof (shrink rate e size (dot_r x y) (f2r d) He ltac:(unfold size, lex_size; lra) ltac:(unfold size, lex_size; lra) Hg Ed) as HS.
  set (K := (1 - rate * size / 2) * Rabs e) in *. clearbody K. clear Ed Hg. unfold e, size, lex_error, lex_size in HS. clear e size.
  apply Rabs_le_inv in HV, HS. replace (10 ^ 6) with 1000000 by (cbn; ring). unfold lex_error. apply Rabs_le. lra.
Qed.
Print Assumptions C97_lexvec.

(** C97. The condition on the rate is needed: with GloVe's default rate, weight 1 and value 0, two
    vectors (10) with biases 0 are NaN after 20 stochastic updates of the pair. *)
Theorem C97_diverges : let o := glv_new 1 [] in let x := [f_of_Z 10; fzero] in
  glv_SolverType o = "sgd"%string /\
  match ofold (fun (_ : nat) m => sgd_train_one (glv_Initlr o) 0 1 fzero (f_of_Z 1) m) (seq 0 20) (of_rows 2 [x; x]) with
  | Ret m => match cell m 0 0 with Ret a => isnan a = true | _ => False end
  | _ => False
  end.
Proof. cbv zeta. split; [reflexivity|]. vm_compute. reflexivity. Qed.
Print Assumptions C97_diverges.

(** Two vectors (1) and (2) with biases 0, value 1, the default rate and weight 1 meet the hypotheses. *)
Example C97_case : let o := glv_new 1 [] in let x := [f_of_Z 1; fzero] in let y := [f_of_Z 2; fzero] in let f := f_of_Z 1 in let coef := f_of_Z 1 in
  small (vec x) /\ small (vec y) /\ small1 (bias x) /\ small1 (bias y) /\ small1 f /\ is_fin (glv_Initlr o) = true /\ is_fin coef = true /\
  gentle (f2r coef * f2r (glv_Initlr o)) (glove_size x y) (glove_error f x y) /\ glove_error f x y = 1.
Proof.
  intros o x y f coef.
  assert (EL : is_fin (glv_Initlr o) = true /\ 0 <= f2r (glv_Initlr o) <= / 16).
  { assert (L : fge (glv_Initlr o) fzero && fle (glv_Initlr o) (fdiv (f_of_Z 1) (f_of_Z 16)) = true) by (vm_compute; reflexivity). apply andb_prop in L. destruct L as (L1 & L2).
    assert (F : is_fin (glv_Initlr o) = true) by (vm_compute; reflexivity). split; [exact F|].
    assert (V : fshow (fdiv (f_of_Z 1) (f_of_Z 16)) = Some (2 ^ 52, -56)%Z) by (vm_compute; reflexivity). destruct (fshow_spec _ _ _ V) as (F16 & V16).
    apply fge_spec in L1. apply fle_spec in L2. destruct L1 as (_ & _ & L1). destruct L2 as (_ & _ & L2). rewrite !fkey_fin in L1, L2 by (auto; reflexivity).
    rewrite V16 in L2. rewrite fzero_r in L1. change (bpow radix2 (-56)) with (/ 72057594037927936) in L2. lra. }
  destruct EL as (FL & BL). destruct (f_of_Z_exact 1) as (V1 & F1); [lia|]. destruct (f_of_Z_exact 2) as (V2 & F2); [lia|].
  assert (S1 : small (vec x)). { split; [cbn; lia|]. split; [constructor; [exact F1|constructor]|]. unfold len_r, dot_r, vec, x. cbn [removelast combine map fold_right fst snd]. rewrite V1. replace (1 * 1 + 0) with (1 * 1) by ring. rewrite sqrt_square; lra. }
  assert (S2 : small (vec y)). { split; [cbn; lia|]. split; [constructor; [exact F2|constructor]|]. unfold len_r, dot_r, vec, y. cbn [removelast combine map fold_right fst snd]. rewrite V2. replace (2 * 2 + 0) with (2 * 2) by ring. rewrite sqrt_square; lra. }
  assert (Z1 : small1 (bias x)) by (split; [reflexivity|]; unfold bias, x; cbn [last]; rewrite fzero_r, Rabs_R0; lra).
  assert (Z2 : small1 (bias y)) by (split; [reflexivity|]; unfold bias, y; cbn [last]; rewrite fzero_r, Rabs_R0; lra).
  assert (EE : glove_error f x y = 1). { unfold glove_error, dot_r, vec, bias, x, y, f. cbn [removelast last combine map fold_right fst snd]. rewrite V1, V2, fzero_r. ring. }
  assert (ES : glove_size x y = 7). { unfold glove_size, dot_r, vec, x, y. cbn [removelast combine map fold_right fst snd]. rewrite V1, V2. ring. }
  repeat (split; [first [assumption | split; [exact F1|unfold f; rewrite V1, Rabs_R1; lra]]|]). split; [|exact EE].
  unfold gentle. rewrite EE, ES, Rabs_R1. unfold coef. rewrite V1. split; lra.
Qed.
