(** * Repeating the update of a pair *)
From Coq Require Import Reals Lra Lia List ZArith.
From Flocq Require Import Core BinarySingleNaN.
From Verif.Lib Require Import Go F64 F64Facts.
From Verif.Spec Require Import Rows Training Cells Cosine Residual Converge.
From Verif.Model Require Import Matrix Cells Glove.
From Verif.Proofs Require Import Cosine SavedCosine Residual.
From Verif.Proofs Require Word2vec Cells Glove.
From Verif.Lib Require ListFacts.
Import ListNotations.
Local Open Scope R_scope.

(** The length of the new row. *)
Lemma step_len (x y : list f64) (d : f64) : length x = length y -> small x -> small y -> is_fin d = true -> Rabs (f2r d) <= 1 ->
  Forall (fun a : f64 => is_fin a = true) (step_row d x y) /\ len_r (step_row d x y) <= len_r x + Rabs (f2r d) * len_r y + 3 / 100000000000.
Proof.
  intros HL Sx Sy Fd Hd. destruct (step_row_close d Fd Hd x y HL (small_comp x Sx) (small_comp y Sy)) as (F1 & L1 & C1). split; [exact F1|].
  destruct Sx as (Nx & _ & Bx). rewrite !len_r_rlen. set (dd := f2r d) in *. set (X := map f2r x) in *. set (Y := map f2r y) in *.
  assert (LX : length X = length x) by apply map_length. assert (LY : length Y = length y) by apply map_length.
  assert (LXY : length X = length Y) by (rewrite LX, LY; exact HL).
  set (A := axr dd X Y) in *. set (A' := map f2r (step_row d x y)) in *.
  assert (LA : length A = length x) by (unfold A; rewrite axr_length, LX, LY; rewrite HL; apply Nat.min_id).
  assert (LA' : length A' = length x) by (unfold A'; rewrite map_length; exact L1).
  assert (SQ : sqrt (INR (length x)) <= 1024).
  { rewrite <- (sqrt_square 1024) by lra. apply sqrt_le_1_alt. rewrite INR_IZR_INZ. apply IZR_le in Nx. change (2 ^ 20)%Z with 1048576%Z in Nx. lra. }
  assert (EA : rlen (rsub A' A) <= 3 / 100000000000).
  { eapply Rle_trans; [apply rlen_small; [|exact C1]; lra|]. unfold rsub. rewrite map_length, combine_length, LA, LA', Nat.min_id.
    pose proof (sqrt_pos (INR (length x))). lra. }
  pose proof (rlen_triangle A' A ltac:(congruence)) as T. pose proof (axr_len dd X Y LXY) as NA. fold A in NA. lra.
Qed.

Lemma exp_1 u : 1 + u <= exp u.
Proof. apply exp_ineq1_le. Qed.

(** What is left of the room after one step. *)
Definition roomy (L0 T0 : R) (k : nat) (f : f64) (x y : list f64) : Prop :=
  let T := Rabs (glove_error f x y) + INR k / 100000 in
  (len_r (vec x) + len_r (vec y) + 1) * exp T <= L0 /\ T <= T0 /\
  Rabs (f2r (bias x)) + T <= 30 /\ Rabs (f2r (bias y)) + T <= 30.
Lemma exp_le_le u v : u <= v -> exp u <= exp v.
Proof. intros [H|E]; [left; apply exp_increasing; exact H|rewrite E; lra]. Qed.

(** ** Pairs of rows, repeatedly *)
Lemma upd_same {A} (l : list A) : forall i x y, upd (upd l i x) i y = upd l i y.
Proof. induction l as [|a l IH]; intros [|i] x y; cbn; try reflexivity. rewrite IH. reflexivity. Qed.
Lemma upd_comm {A} (l : list A) : forall i j x y, i <> j -> upd (upd l i x) j y = upd (upd l j y) i x.
Proof. induction l as [|a l IH]; intros [|i] [|j] x y N; cbn; try reflexivity; try congruence. rewrite IH by congruence. reflexivity. Qed.
Lemma upd2_upd2 {A} (l : list A) i j x y x' y' : i <> j -> upd2 (upd2 l i j x y) i j x' y' = upd2 l i j x' y'.
Proof. intros N. unfold upd2. rewrite (upd_comm (upd l i x) j i y x') by congruence. rewrite upd_same, upd_same. reflexivity. Qed.
Lemma upd2_comm {A} (l : list A) i j p q x y u v : i <> p -> i <> q -> j <> p -> j <> q ->
  upd2 (upd2 l i j x y) p q u v = upd2 (upd2 l p q u v) i j x y.
Proof.
  intros. unfold upd2. rewrite (upd_comm (upd l i x) j p) by auto. rewrite (upd_comm l i p) by auto.
  rewrite (upd_comm (upd (upd l p u) i x) j q) by auto. rewrite (upd_comm (upd l p u) i q) by auto. reflexivity.
Qed.
Lemma nth_upd2 {A} (l : list A) i j x y d : i <> j -> (i < length l)%nat -> (j < length l)%nat ->
  nth i (upd2 l i j x y) d = x /\ nth j (upd2 l i j x y) d = y /\ (forall q, q <> i -> q <> j -> nth q (upd2 l i j x y) d = nth q l d).
Proof.
  intros N L1 L2. unfold upd2.
  assert (S1 : forall (m : list A) k z, (k < length m)%nat -> nth k (upd m k z) d = z).
  { induction m as [|a m IH]; intros [|k] z Hk; cbn in *; try lia; [reflexivity|]. apply IH. lia. }
  assert (S2 : forall (m : list A) k q z, q <> k -> nth q (upd m k z) d = nth q m d).
  { induction m as [|a m IH]; intros [|k] [|q] z Hk; cbn in *; try lia; try reflexivity. apply IH. lia. }
  split; [rewrite S2 by auto; apply S1; exact L1|]. split; [apply S1; rewrite ListFacts.upd_length; exact L2|]. intros q Q1 Q2. rewrite !S2 by auto. reflexivity.
Qed.

(** The rows of the pair after [n] updates. *)
Definition pair_step (lr f coef : f64) (p : list f64 * list f64) : list f64 * list f64 :=
  let d := glove_diff lr f coef (fst p) (snd p) in (sgd_row d (fst p) (snd p), sgd_row d (snd p) (fst p)).
Definition pair_iter (lr f coef : f64) (n : nat) (p : list f64 * list f64) : list f64 * list f64 := Nat.iter n (pair_step lr f coef) p.
Lemma pair_iter_length dim lr f coef n x y : length x = S dim -> length y = S dim ->
  length (fst (pair_iter lr f coef n (x, y))) = S dim /\ length (snd (pair_iter lr f coef n (x, y))) = S dim.
Proof.
  intros Lx Ly. unfold pair_iter. induction n as [|n (I1 & I2)]; [split; assumption|]. change (Nat.iter (S n) (pair_step lr f coef) (x, y)) with (pair_step lr f coef (Nat.iter n (pair_step lr f coef) (x, y))).
  set (p := Nat.iter n (pair_step lr f coef) (x, y)) in *. clearbody p. unfold pair_step. cbv zeta. cbn [fst snd].
  split; apply Cells.sgd_row_length; auto.
Qed.

Lemma repeat_rows dim r1 r2 lr f coef : r1 <> r2 -> forall (l : list nat) rows, all_len (S dim) rows -> (r1 < length rows)%nat -> (r2 < length rows)%nat ->
  ofold (fun (_ : nat) m => sgd_train_one lr (Z.of_nat r1) (Z.of_nat r2) f coef m) l (of_rows (S dim) rows) =
  Ret (let p := pair_iter lr f coef (length l) (nth r1 rows [], nth r2 rows []) in of_rows (S dim) (upd2 rows r1 r2 (fst p) (snd p))).
Proof.
  intros Hne l rows HA H1 H2. cbv zeta.
  assert (G : forall (l : list nat) n, let p := pair_iter lr f coef n (nth r1 rows [], nth r2 rows []) in
    ofold (fun (_ : nat) m => sgd_train_one lr (Z.of_nat r1) (Z.of_nat r2) f coef m) l (of_rows (S dim) (upd2 rows r1 r2 (fst p) (snd p))) =
    Ret (let p := pair_iter lr f coef (length l + n) (nth r1 rows [], nth r2 rows []) in of_rows (S dim) (upd2 rows r1 r2 (fst p) (snd p)))).
  { clear l. induction l as [|a l IH]; intros n p; [reflexivity|]. cbn [ofold].
    pose proof (Word2vec.all_len_nth _ _ _ HA H1) as E1. pose proof (Word2vec.all_len_nth _ _ _ HA H2) as E2.
    destruct (pair_iter_length dim lr f coef n _ _ E1 E2) as (P1 & P2). fold p in P1, P2.
    destruct (Cells.upd2_ok (S dim) rows r1 r2 (fst p) (snd p) HA P1 P2) as (A' & L').
    rewrite (Glove.sgd_lemma dim _ r1 r2 Hne A') by lia. cbn [obind].
    destruct (nth_upd2 rows r1 r2 (fst p) (snd p) [] Hne H1 H2) as (N1 & N2 & _). rewrite N1, N2, upd2_upd2 by exact Hne.
    specialize (IH (S n)). cbv zeta in IH. cbn [length]. replace (S (length l) + n)%nat with (length l + S n)%nat by lia. rewrite <- IH. f_equal. }
  specialize (G l 0%nat). cbv zeta in G. rewrite Nat.add_0_r in G. rewrite <- G. f_equal. f_equal. cbn [pair_iter Nat.iter fst snd]. unfold upd2.
  assert (U : forall (m : list (list f64)) k, upd m k (nth k m []) = m).
  { induction m as [|b m IH]; intros [|k]; cbn; try reflexivity. rewrite IH. reflexivity. }
  rewrite U. symmetry. apply U.
Qed.

(** An item whose words differ: two pairs of rows that do not meet. *)
Lemma repeat_items dim V a b lr f coef : a <> b -> (a < V)%nat -> (b < V)%nat -> forall n rows, all_len (S dim) rows -> length rows = (2 * V)%nat ->
  ofold (glove_train_item lr (Z.of_nat V)) (repeat (Item (Z.of_nat a) (Z.of_nat b) f coef) n) (of_rows (S dim) rows, Stochastic) =
  Ret (of_rows (S dim) (let p := pair_iter lr f coef n (nth a rows [], nth (b + V) rows []) in let q := pair_iter lr f coef n (nth (a + V) rows [], nth b rows []) in
         upd2 (upd2 rows a (b + V) (fst p) (snd p)) (a + V) b (fst q) (snd q)), Stochastic).
Proof.
  intros Hne Ha Hb n rows HA HL. cbv zeta. set (x0 := nth a rows []). set (y0 := nth (b + V) rows []). set (u0 := nth (a + V) rows []). set (v0 := nth b rows []).
  assert (Lx : length x0 = S dim) by (apply Word2vec.all_len_nth; [exact HA|lia]). assert (Ly : length y0 = S dim) by (apply Word2vec.all_len_nth; [exact HA|lia]).
  assert (Lu : length u0 = S dim) by (apply Word2vec.all_len_nth; [exact HA|lia]). assert (Lv : length v0 = S dim) by (apply Word2vec.all_len_nth; [exact HA|lia]).
  assert (U : forall (m : list (list f64)) k, upd m k (nth k m []) = m).
  { induction m as [|c m IH]; intros [|k]; cbn; try reflexivity. rewrite IH. reflexivity. }
  assert (G : forall n k, let p := pair_iter lr f coef k (x0, y0) in let q := pair_iter lr f coef k (u0, v0) in
    ofold (glove_train_item lr (Z.of_nat V)) (repeat (Item (Z.of_nat a) (Z.of_nat b) f coef) n) (of_rows (S dim) (upd2 (upd2 rows a (b + V) (fst p) (snd p)) (a + V) b (fst q) (snd q)), Stochastic) =
    Ret (of_rows (S dim) (let p := pair_iter lr f coef (n + k) (x0, y0) in let q := pair_iter lr f coef (n + k) (u0, v0) in
         upd2 (upd2 rows a (b + V) (fst p) (snd p)) (a + V) b (fst q) (snd q)), Stochastic)).
  { clear n. induction n as [|n IH]; intros k p q; [reflexivity|]. cbn [repeat ofold].
    destruct (pair_iter_length dim lr f coef k x0 y0 Lx Ly) as (P1 & P2). fold p in P1, P2. destruct (pair_iter_length dim lr f coef k u0 v0 Lu Lv) as (Q1 & Q2). fold q in Q1, Q2.
    destruct (Cells.upd2_ok (S dim) rows a (b + V) (fst p) (snd p) HA P1 P2) as (A1 & L1).
    destruct (Cells.upd2_ok (S dim) _ (a + V) b (fst q) (snd q) A1 Q1 Q2) as (A2 & L2).
    set (rs := upd2 (upd2 rows a (b + V) (fst p) (snd p)) (a + V) b (fst q) (snd q)) in *.
    assert (Rp : forall p' : list f64 * list f64, upd2 rs a (b + V) (fst p') (snd p') = upd2 (upd2 rows a (b + V) (fst p') (snd p')) (a + V) b (fst q) (snd q)).
    { intros p'. unfold rs. rewrite (upd2_comm _ (a + V) b a (b + V)) by lia. rewrite upd2_upd2 by lia. reflexivity. }
    destruct (nth_upd2 rows a (b + V) (fst p) (snd p) [] ltac:(lia) ltac:(lia) ltac:(lia)) as (N1 & N2 & N3).
    destruct (nth_upd2 (upd2 rows a (b + V) (fst p) (snd p)) (a + V) b (fst q) (snd q) [] ltac:(lia) ltac:(lia) ltac:(lia)) as (M1 & M2 & M3). fold rs in M1, M2, M3.
    unfold glove_train_item at 1. cbn [it_l1 it_l2 it_f it_coef]. rewrite <- !Nat2Z.inj_add. unfold solver_train_one. cbn [fst snd].
    rewrite (Glove.sgd_lemma dim rs a (b + V)) by (auto; lia). cbn [obind fst snd].
    rewrite (M3 a), (M3 (b + V)%nat) by lia. rewrite N1, N2.
    set (p' := pair_step lr f coef p). change (sgd_row (glove_diff lr f coef (fst p) (snd p)) (fst p) (snd p)) with (fst p'). change (sgd_row (glove_diff lr f coef (fst p) (snd p)) (snd p) (fst p)) with (snd p').
    assert (P1' : length (fst p') = S dim) by (apply Cells.sgd_row_length; auto). assert (P2' : length (snd p') = S dim) by (apply Cells.sgd_row_length; auto).
    rewrite Rp.
    destruct (Cells.upd2_ok (S dim) rows a (b + V) (fst p') (snd p') HA P1' P2') as (A3 & L3).
    destruct (Cells.upd2_ok (S dim) _ (a + V) b (fst q) (snd q) A3 Q1 Q2) as (A4 & L4).
    destruct (nth_upd2 (upd2 rows a (b + V) (fst p') (snd p')) (a + V) b (fst q) (snd q) [] ltac:(lia) ltac:(lia) ltac:(lia)) as (K1 & K2 & _).
    rewrite (Glove.sgd_lemma dim _ (a + V) b) by (auto; lia). cbn [obind fst snd]. rewrite K1, K2.
    set (q' := pair_step lr f coef q). change (sgd_row (glove_diff lr f coef (fst q) (snd q)) (fst q) (snd q)) with (fst q'). change (sgd_row (glove_diff lr f coef (fst q) (snd q)) (snd q) (fst q)) with (snd q').
    rewrite upd2_upd2 by lia. specialize (IH (S k)). cbv zeta in IH. replace (S n + k)%nat with (n + S k)%nat by lia. rewrite <- IH. reflexivity. }
  specialize (G n 0%nat). cbv zeta in G. rewrite Nat.add_0_r in G. rewrite <- G. f_equal. f_equal. change (pair_iter lr f coef 0 (x0, y0)) with (x0, y0). change (pair_iter lr f coef 0 (u0, v0)) with (u0, v0). cbn [fst snd]. unfold upd2.
  unfold x0, y0. rewrite (U rows a), (U rows (b + V)%nat). unfold u0, v0. rewrite (U rows (a + V)%nat), (U rows b). reflexivity.
Qed.
