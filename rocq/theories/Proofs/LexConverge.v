(** * Repeating the LexVec update of a pair *)
From Coq Require Import Reals Lra Lia List ZArith.
From Flocq Require Import Core BinarySingleNaN.
From Verif.Lib Require Import Go F64 F64Facts.
From Verif.Spec Require Import Rows Training Cells Cosine Residual Converge.
From Verif.Model Require Import Matrix Cells Lexvec.
From Verif.Proofs Require Import Cosine SavedCosine Residual Converge.
From Verif.Proofs Require Word2vec Cells Lexvec.
Import ListNotations.
Local Open Scope R_scope.

(** The new row is not much shorter. *)
Lemma axr_back d : forall a b, length a = length b -> axr (- d) (axr d a b) b = a.
Proof.
  induction a as [|s a IH]; intros [|t b] H; try discriminate H; [reflexivity|].
  change (axr d (s :: a) (t :: b)) with ((s - d * t) :: axr d a b). change (axr (- d) (?u :: ?l) (t :: b)) with ((u - - d * t) :: axr (- d) l b).
  rewrite IH by (cbn in H; lia). f_equal. ring.
Qed.
Lemma step_len_low (x y : list f64) (d : f64) : length x = length y -> small x -> small y -> is_fin d = true -> Rabs (f2r d) <= 1 ->
  len_r x <= len_r (step_row d x y) + Rabs (f2r d) * len_r y + 3 / 100000000000.
Proof.
  intros HL Sx Sy Fd Hd. destruct (step_row_close d Fd Hd x y HL (small_comp x Sx) (small_comp y Sy)) as (F1 & L1 & C1).
  destruct Sx as (Nx & _ & Bx). rewrite !len_r_rlen. set (dd := f2r d) in *. set (X := map f2r x) in *. set (Y := map f2r y) in *.
  assert (LX : length X = length x) by apply map_length. assert (LY : length Y = length y) by apply map_length.
  assert (LXY : length X = length Y) by (rewrite LX, LY; exact HL).
  set (A := axr dd X Y) in *. set (A' := map f2r (step_row d x y)) in *.
  assert (LA : length A = length x) by (unfold A; rewrite axr_length, LX, LY; rewrite HL; apply Nat.min_id).
  assert (LA' : length A' = length x) by (unfold A'; rewrite map_length; exact L1).
  assert (SQ : sqrt (INR (length x)) <= 1024).
  { rewrite <- (sqrt_square 1024) by lra. apply sqrt_le_1_alt. rewrite INR_IZR_INZ. apply IZR_le in Nx. change (2 ^ 20)%Z with 1048576%Z in Nx. lra. }
  assert (EA : rlen (rsub A' A) <= 3 / 100000000000).
  { eapply Rle_trans; [apply rlen_small; [|exact C1]; lra|]. unfold rsub. rewrite map_length, combine_length, LA, LA', Nat.min_id.
    pose proof (sqrt_pos (INR (length x))). lra. }
  pose proof (rlen_triangle A A' ltac:(congruence)) as T. rewrite (rsub_swap A A') in T by congruence.
  pose proof (axr_len (- dd) A Y ltac:(congruence)) as NA. unfold A in NA at 1. rewrite (axr_back dd X Y LXY), Rabs_Ropp in NA. lra.
Qed.

Lemma exp_low u : 0 <= u <= 1 / 2 -> exp (- (2 * u)) <= 1 - u.
Proof.
  intros H. rewrite exp_Ropp. pose proof (exp_1 (2 * u)) as E. apply Rmult_le_reg_l with (exp (2 * u)); [apply exp_pos|]. rewrite Rinv_r by (pose proof (exp_pos (2 * u)); lra). nra.
Qed.

(** What is left of the room after some steps. *)
Definition lex_roomy (L0 E0 m : R) (k : nat) (f : f64) (x y : list f64) : Prop :=
  let q := 4 / (m * m) in let e := Rabs (lex_error f x y) in let T := q * e + INR k * (q + 1) / 100000 in
  (len_r x + len_r y + 1) * exp T <= L0 /\ m * exp (2 * T) <= len_r x + len_r y /\ e + INR k / 100000 <= E0.

(** The factor of an update, and what it makes of the error. *)
Lemma lex_factor lr f x y : length x = length y -> small x -> small y -> small1 f -> is_fin lr = true -> 0 <= f2r lr <= 1 ->
  let d := fmul (fsub (dot x y) f) lr in
  is_fin d = true /\ Rabs (f2r d - f2r lr * lex_error f x y) <= 3 / 10000000 * f2r lr + / 1000000000000.
Proof.
  intros LV Sx Sy (Ff & Bf) Fl He d. destruct (dot_near x y LV Sx Sy) as (Fs & Es & Bd & Px & Py & CS).
  apply Rabs_le_inv in Es, Bd, Bf. assert (A1 : Rabs (f2r (dot x y) - f2r f) <= 4096) by (apply Rabs_le; lra).
  destruct (fsub_fin _ f Fs Ff (no_overflow _ A1)) as (V1 & G1). pose proof (rnd_near _ A1) as E1. rewrite <- V1 in E1. apply Rabs_le_inv in E1.
  apply factor; auto; unfold lex_error; try (apply Rabs_le; lra). replace (f2r lr - f2r lr) with 0 by ring. rewrite Rabs_R0.
  pose proof tiny_val. pose proof uu_pos. assert (0 <= uu * f2r lr) by (apply Rmult_le_pos; lra). lra.
Qed.
Lemma lex_shrinks lr f x y : length x = length y -> small x -> small y -> small1 f -> is_fin lr = true ->
  gentle (f2r lr) (lex_size x y) (lex_error f x y) ->
  let d := fmul (fsub (dot x y) f) lr in
  Rabs (lex_error f (step_row d x y) (step_row d y x)) <= (1 - f2r lr * lex_size x y / 2) * Rabs (lex_error f x y) + / 1000000.
Proof.
  intros LV Sx Sy Bf Fl (He & Hg) d. destruct (lex_factor lr f x y LV Sx Sy Bf Fl He) as (Fd & Ed). fold d in Fd, Ed.
  destruct (dot_near x y LV Sx Sy) as (Fs & Es & Bd & Px & Py & CS).
  set (e := lex_error f x y) in *. set (size := lex_size x y) in *. set (rate := f2r lr) in *.
  assert (BE : Rabs (f2r d) <= 1).
  { assert (Rabs (rate * e) <= 1 / 2).
    { rewrite Rabs_mult, (Rabs_pos_eq rate) by lra. assert (0 <= rate * size) by (apply Rmult_le_pos; [lra|unfold size, lex_size; lra]). lra. }
    replace (f2r d) with ((f2r d - rate * e) + rate * e) by ring. eapply Rle_trans; [apply Rabs_triang|]. lra. }
  pose proof (vec_step x y d LV Sx Sy Fd BE) as HV.
  pose proof (shrink rate e size (dot_r x y) (f2r d) He ltac:(unfold size, lex_size; lra) ltac:(unfold size, lex_size; lra) Hg Ed) as HS.
  set (K := (1 - rate * size / 2) * Rabs e) in *. clearbody K. clear Ed Hg. unfold e, size, lex_error, lex_size in HS. clear e size.
  apply Rabs_le_inv in HV, HS. unfold lex_error. apply Rabs_le. lra.
Qed.

(** The bookkeeping of one step, over the reals: [lx], [ly] and [e] before, [lx'], [ly'] and [e'] after. *)
Lemma lex_budget rate m lx ly lx' ly' e e' d q K : / 1000 <= m -> q = 4 / (m * m) -> 0 < rate <= 1 ->
  0 <= lx -> 0 <= ly -> 0 <= e -> 0 <= e' -> 0 <= d <= 26 / 100 -> m <= lx + ly ->
  d <= rate * e + 4 / 10000000 -> e' <= (1 - rate * (m * m) / 4) * e + / 1000000 ->
  lx' <= lx + d * ly + 3 / 100000000000 -> ly' <= ly + d * lx + 3 / 100000000000 ->
  lx <= lx' + d * ly + 3 / 100000000000 -> ly <= ly' + d * lx + 3 / 100000000000 ->
  0 <= lx' -> 0 <= ly' ->
  let T := q * e + (K + 1) * (q + 1) / 100000 in let T' := q * e' + K * (q + 1) / 100000 in
  (lx' + ly' + 1) * exp T' <= (lx + ly + 1) * exp T /\
  (m * exp (2 * T) <= lx + ly -> m * exp (2 * T') <= lx' + ly').
Proof.
  intros Hm Hq Hr Px Py Pe Pe' (Pd & Hd) Hs Ed Ee X1 Y1 X2 Y2 Px' Py' T T'.
  assert (MM : 0 < m * m) by nra. assert (Pq : 0 < q) by (rewrite Hq; apply Rdiv_lt_0_compat; lra).
  assert (QM : q * (m * m) = 4) by (rewrite Hq; field; lra).
  assert (RE : rate * e <= q * (e - e' + / 1000000)).
  { apply Rmult_le_reg_r with (m * m / 4); [lra|]. replace (q * (e - e' + / 1000000) * (m * m / 4)) with (q * (m * m) / 4 * (e - e' + / 1000000)) by field. rewrite QM. lra. }
  set (u := d + 6 / 100000000).
  assert (DT : u + T' <= T).
  { unfold u, T, T'. rewrite Rmult_plus_distr_l in RE. rewrite Rmult_minus_distr_l in RE. lra. }
  assert (Iu : 0 <= u <= 1 / 2) by (unfold u; lra).
  set (s := lx + ly) in *.
  split.
  - apply Rle_trans with ((s + 1) * (exp u * exp T')).
    + rewrite <- Rmult_assoc. apply Rmult_le_compat_r; [left; apply exp_pos|]. apply Rle_trans with ((s + 1) * (1 + u)); [|apply Rmult_le_compat_l; [lra|apply exp_1]].
      assert (0 <= s * (6 / 100000000)) by (apply Rmult_le_pos; lra). unfold u. unfold s in *. lra.
    + apply Rmult_le_compat_l; [unfold s; lra|]. rewrite <- exp_plus. apply exp_le_le. exact DT.
  - intros H. apply Rle_trans with (m * (exp (- (2 * u)) * exp (2 * T))).
    + apply Rmult_le_compat_l; [lra|]. rewrite <- exp_plus. apply exp_le_le. lra.
    + apply Rle_trans with (s * (1 - u)).
      * replace (m * (exp (- (2 * u)) * exp (2 * T))) with ((m * exp (2 * T)) * exp (- (2 * u))) by ring.
        apply Rmult_le_compat; [apply Rmult_le_pos; [lra|left; apply exp_pos]|left; apply exp_pos|exact H|apply exp_low; exact Iu].
      * assert (/ 1000 * (6 / 100000000) <= s * (6 / 100000000)) by (apply Rmult_le_compat_r; lra). unfold u, s in *. lra.
Qed.

Lemma lex_one_step dim lr f x y L0 E0 m k : let d := fmul (fsub (dot x y) f) lr in
  length x = dim -> length y = dim -> finite_row x -> finite_row y -> small1 f -> is_fin lr = true ->
  0 < f2r lr <= 1 -> / 1000 <= m -> L0 <= 30 -> f2r lr * (L0 * L0 + E0) <= 1 / 4 -> lex_roomy L0 E0 m (S k) f x y ->
  let x' := step_row d x y in let y' := step_row d y x in
  length x' = dim /\ length y' = dim /\ finite_row x' /\ finite_row y' /\ lex_roomy L0 E0 m k f x' y' /\
  Rabs (lex_error f x' y') <= (1 - f2r lr * (m * m) / 4) * Rabs (lex_error f x y) + / 1000000.
Proof.
  intros d Lx Ly (Nx & Vx) (Ny & Vy) Bf Fl Hr Hm HL0 HG HR x' y'. set (rate := f2r lr) in *.
  unfold lex_roomy in HR. rewrite S_INR in HR. set (e := lex_error f x y) in *. set (q := 4 / (m * m)) in *. pose proof (Rabs_pos e) as Pe. pose proof (pos_INR k) as Pk.
  destruct HR as (RL & RM & RE). set (lx := len_r x) in *. set (ly := len_r y) in *.
  assert (Plx : 0 <= lx) by (unfold lx; rewrite len_r_rlen; apply rlen_pos). assert (Ply : 0 <= ly) by (unfold ly; rewrite len_r_rlen; apply rlen_pos).
  assert (MM : 0 < m * m) by nra. assert (Pq : 0 < q) by (apply Rdiv_lt_0_compat; lra).
  set (T := q * Rabs e + (INR k + 1) * (q + 1) / 100000) in *.
  assert (PT : 0 <= T). { unfold T. pose proof (Rmult_le_pos q (Rabs e)). pose proof (Rmult_le_pos (INR k + 1) (q + 1)). lra. }
  assert (X1 : 1 <= exp T) by (pose proof (exp_1 T); lra). assert (X2 : 1 <= exp (2 * T)) by (pose proof (exp_1 (2 * T)); lra).
  assert (ML : lx + ly + 1 <= L0).
  { eapply Rle_trans; [|exact RL]. rewrite <- (Rmult_1_r (lx + ly + 1)) at 1. apply Rmult_le_compat_l; lra. }
  assert (MS : m <= lx + ly).
  { eapply Rle_trans; [|exact RM]. rewrite <- (Rmult_1_r m) at 1. apply Rmult_le_compat_l; lra. }
  assert (Sx : small x) by (split; [exact Nx|split; [exact Vx|fold lx; lra]]). assert (Sy : small y) by (split; [exact Ny|split; [exact Vy|fold ly; lra]]).
  assert (LV : length x = length y) by congruence.
  assert (SZ : m * m / 2 <= lex_size x y <= L0 * L0).
  { unfold lex_size. assert (XX : dot_r x x = lx * lx) by (unfold lx; rewrite len_r_rlen, rlen_sq, dot_r_rdot; reflexivity).
    assert (YY : dot_r y y = ly * ly) by (unfold ly; rewrite len_r_rlen, rlen_sq, dot_r_rdot; reflexivity). rewrite XX, YY. split; [|nra].
    assert (m * m <= (lx + ly) * (lx + ly)) by (apply Rmult_le_compat; lra). pose proof (Rle_0_sqr (lx - ly)) as Q. unfold Rsqr in Q. lra. }
  assert (HGE : rate * (lex_size x y + Rabs e) <= 1 / 4).
  { eapply Rle_trans; [|exact HG]. apply Rmult_le_compat_l; lra. }
  assert (G : gentle rate (lex_size x y) e) by (split; lra).
  pose proof (lex_shrinks lr f x y LV Sx Sy Bf Fl G) as E. cbv zeta in E. fold d x' y' rate e in E.
  assert (E' : Rabs (lex_error f x' y') <= (1 - rate * (m * m) / 4) * Rabs e + / 1000000).
  { eapply Rle_trans; [exact E|]. apply Rplus_le_compat_r. apply Rmult_le_compat_r; [exact Pe|]. assert (rate * (m * m / 2) <= rate * lex_size x y) by (apply Rmult_le_compat_l; lra). lra. }
  destruct (lex_factor lr f x y LV Sx Sy Bf Fl ltac:(fold rate; lra)) as (Fd & Ed). fold d in Fd, Ed. fold rate e in Ed.
  assert (AD : Rabs (f2r d) <= rate * Rabs e + 4 / 10000000).
  { replace (f2r d) with ((f2r d - rate * e) + rate * e) by ring. eapply Rle_trans; [apply Rabs_triang|]. rewrite (Rabs_mult rate e), (Rabs_pos_eq rate) by lra. lra. }
  assert (REQ : rate * Rabs e <= 1 / 4). { rewrite Rmult_plus_distr_l in HGE. assert (0 <= rate * lex_size x y) by (apply Rmult_le_pos; lra). lra. }
  assert (HD : Rabs (f2r d) <= 1) by lra. pose proof (Rabs_pos (f2r d)) as Pd.
  destruct (step_len x y d LV Sx Sy Fd HD) as (F1 & N1). destruct (step_len y x d (eq_sym LV) Sy Sx Fd HD) as (F2 & N2).
  pose proof (step_len_low x y d LV Sx Sy Fd HD) as N3. pose proof (step_len_low y x d (eq_sym LV) Sy Sx Fd HD) as N4.
  fold x' y' lx ly in N1, N2, N3, N4, F1, F2.
  assert (LX' : length x' = dim) by (unfold x'; rewrite Cells.step_row_length; auto). assert (LY' : length y' = dim) by (unfold y'; rewrite Cells.step_row_length; auto).
  assert (Plx' : 0 <= len_r x') by (rewrite len_r_rlen; apply rlen_pos). assert (Ply' : 0 <= len_r y') by (rewrite len_r_rlen; apply rlen_pos).
  split; [exact LX'|]. split; [exact LY'|]. split; [split; [rewrite LX', <- Lx; exact Nx|exact F1]|]. split; [split; [rewrite LY', <- Ly; exact Ny|exact F2]|].
  split; [|exact E']. unfold lex_roomy. fold q.
  pose proof (Rabs_pos (lex_error f x' y')) as Pe'.
  destruct (lex_budget rate m lx ly (len_r x') (len_r y') (Rabs e) (Rabs (lex_error f x' y')) (Rabs (f2r d)) q (INR k) Hm eq_refl Hr Plx Ply Pe Pe' ltac:(lra) MS AD E' N1 N2 N3 N4 Plx' Ply') as (B1 & B2).
  fold T in B1, B2. split; [lra|]. split; [apply B2; exact RM|].
  assert (0 <= rate * (m * m) / 4 * Rabs e). { apply Rmult_le_pos; [|exact Pe]. pose proof (Rmult_le_pos rate (m * m)). lra. } lra.
Qed.

Lemma upd_nth {A} (d : A) (l : list A) : forall k, upd l k (nth k l d) = l.
Proof. induction l as [|b l IH]; intros [|k]; cbn; try reflexivity. rewrite IH. reflexivity. Qed.

(** [length l] updates. *)
Lemma lex_many dim lr f L0 E0 m a b : small1 f -> is_fin lr = true -> 0 < f2r lr <= 1 -> / 1000 <= m -> L0 <= 30 -> f2r lr * (L0 * L0 + E0) <= 1 / 4 ->
  a <> b -> forall (l : list nat) rows, all_len dim rows -> (a < length rows)%nat -> (b < length rows)%nat ->
  finite_row (nth a rows []) -> finite_row (nth b rows []) -> lex_roomy L0 E0 m (length l) f (nth a rows []) (nth b rows []) ->
  let c := f2r lr * (m * m) / 4 in
  exists x' y', ofold (fun (_ : nat) mm => lex_update (Z.of_nat dim) lr (Z.of_nat a) (Z.of_nat b) f mm) l (of_rows dim rows) = Ret (of_rows dim (upd2 rows a b x' y')) /\
    length x' = dim /\ length y' = dim /\ finite_row x' /\ finite_row y' /\ m <= len_r x' + len_r y' /\
    Rabs (lex_error f x' y') <= (1 - c) ^ length l * Rabs (lex_error f (nth a rows []) (nth b rows [])) + (1 - (1 - c) ^ length l) * (/ 1000000 / c).
Proof.
  intros Bf Fl Hr Hm HL HG Hne. induction l as [|i l IH]; intros rows HA H1 H2 Fx Fy HR c; set (x := nth a rows []) in *; set (y := nth b rows []) in *;
  assert (Lx : length x = dim) by (apply Word2vec.all_len_nth; auto); assert (Ly : length y = dim) by (apply Word2vec.all_len_nth; auto).
  - exists x, y. split. { cbn [ofold]. unfold upd2, x, y. rewrite !upd_nth. reflexivity. }
    split; [exact Lx|]. split; [exact Ly|]. split; [exact Fx|]. split; [exact Fy|]. split.
    { unfold lex_roomy in HR. destruct HR as (_ & RM & _). eapply Rle_trans; [|exact RM].
      assert (MM : 0 < m * m) by nra. assert (Pq : 0 < 4 / (m * m)) by (apply Rdiv_lt_0_compat; lra). set (q := 4 / (m * m)) in *.
      set (T := q * _ + _). assert (PT : 0 <= T). { unfold T. pose proof (Rabs_pos (lex_error f x y)). pose proof (Rmult_le_pos q (Rabs (lex_error f x y))). change (INR (length (@nil nat))) with 0. lra. }
      pose proof (exp_1 (2 * T)). rewrite <- (Rmult_1_r m) at 1. apply Rmult_le_compat_l; lra. }
    cbn [length pow]. lra.
  - cbn [length] in HR.
    assert (Cpos : 0 < c <= 1).
    { assert (MM : 0 < m * m) by nra. assert (P : 0 < f2r lr * (m * m)) by (apply Rmult_lt_0_compat; lra). unfold c. split; [lra|].
      unfold lex_roomy in HR. destruct HR as (RL & RM & RE). pose proof (pos_INR (S (length l))) as Pk. pose proof (Rabs_pos (lex_error f x y)) as Pe.
      assert (Pq : 0 < 4 / (m * m)) by (apply Rdiv_lt_0_compat; lra). set (q := 4 / (m * m)) in *. set (T := q * _ + _) in *.
      assert (PT : 0 <= T). { unfold T. pose proof (Rmult_le_pos q (Rabs (lex_error f x y))). pose proof (Rmult_le_pos (INR (S (length l))) (q + 1)). lra. }
      pose proof (exp_1 T). pose proof (exp_1 (2 * T)).
      assert (Plx : 0 <= len_r x) by (rewrite len_r_rlen; apply rlen_pos). assert (Ply : 0 <= len_r y) by (rewrite len_r_rlen; apply rlen_pos).
      assert (m <= len_r x + len_r y). { eapply Rle_trans; [|exact RM]. rewrite <- (Rmult_1_r m) at 1. apply Rmult_le_compat_l; lra. }
      assert (len_r x + len_r y + 1 <= L0). { eapply Rle_trans; [|exact RL]. rewrite <- (Rmult_1_r (len_r x + len_r y + 1)) at 1. apply Rmult_le_compat_l; lra. }
      assert (m * m <= L0 * L0) by (apply Rmult_le_compat; lra).
      assert (f2r lr * (m * m) <= f2r lr * (L0 * L0 + E0)) by (apply Rmult_le_compat_l; lra). lra. }
    destruct (lex_one_step dim lr f x y L0 E0 m (length l) Lx Ly Fx Fy Bf Fl Hr Hm HL HG HR) as (Lx' & Ly' & Fx' & Fy' & HR' & E).
    set (d := fmul (fsub (dot x y) f) lr) in *.
    destruct (Cells.upd2_ok dim rows a b (step_row d x y) (step_row d y x) HA Lx' Ly') as (A' & L').
    destruct (nth_upd2 rows a b (step_row d x y) (step_row d y x) [] Hne H1 H2) as (N1 & N2 & _).
    destruct (IH (upd2 rows a b (step_row d x y) (step_row d y x)) A' ltac:(lia) ltac:(lia)) as (x2 & y2 & R & Q1 & Q2 & Q3 & Q4 & Q5 & Q6);
      [rewrite N1; exact Fx'|rewrite N2; exact Fy'|rewrite N1, N2; exact HR'|].
    rewrite N1, N2 in Q6. exists x2, y2. split.
    { cbn [ofold]. rewrite (Lexvec.update_lemma dim lr rows a b f HA H1 H2). unfold lex_step. cbv zeta. fold x y d. pose proof Hne as Hne'. apply Nat.eqb_neq in Hne'. rewrite Hne'. cbn [obind].
      rewrite R. f_equal. f_equal. apply upd2_upd2. exact Hne. }
    split; [exact Q1|]. split; [exact Q2|]. split; [exact Q3|]. split; [exact Q4|]. split; [exact Q5|]. fold c in Q6, E. eapply Rle_trans; [exact Q6|].
    set (e1 := Rabs (lex_error f (step_row d x y) _)) in E |- *. set (e0 := Rabs (lex_error f x y)) in *. clearbody e1 e0 c. cbn [length pow].
    assert (P : 0 <= (1 - c) ^ length l) by (apply pow_le; lra). set (w := (1 - c) ^ length l) in *. clearbody w.
    assert (K : w * e1 <= w * ((1 - c) * e0 + / 1000000)) by (apply Rmult_le_compat_l; auto).
    set (kk := / 1000000 / c). assert (EK : / 1000000 = c * kk) by (unfold kk; field; lra). rewrite EK in K. clearbody kk. lra.
Qed.
