(** * C117: a LexVec update of a word against itself brings its squared length closer to the value *)
From Coq Require Import Reals Lra Lia List ZArith.
From Flocq Require Import Core BinarySingleNaN.
From Verif.Lib Require Import Go F64 F64Facts.
From Verif.Spec Require Import Rows Training Cells Cosine Residual Converge.
From Verif.Model Require Import Matrix Cells Lexvec.
From Verif.Proofs Require Import Cosine SavedCosine Residual Converge LexConverge.
From Verif.Proofs Require Word2vec Cells Lexvec.
From Verif.Lib Require ListFacts.
Import ListNotations.
Local Open Scope R_scope.

Lemma self_num (a d : f64) : is_fin a = true -> is_fin d = true -> Rabs (f2r a) <= 30 -> Rabs (f2r d) <= 1 ->
  is_fin (fsub (fsub a (fmul d a)) (fmul d a)) = true /\
  Rabs (f2r (fsub (fsub a (fmul d a)) (fmul d a)) - (f2r a - 2 * f2r d * f2r a)) <= 5 / 100000000000000.
Proof.
  intros Fa Fd Ha Hd. pose proof tiny_val as T. destruct (step_num a a d Fa Fa Fd Ha Ha Hd) as (F1 & E1).
  assert (A1 : Rabs (f2r d * f2r a) <= 30). { rewrite Rabs_mult. pose proof (Rabs_pos (f2r d)). pose proof (Rabs_pos (f2r a)). nra. }
  destruct (fmul_fin d a Fd Fa) as (V & F). { apply no_overflow. lra. }
  pose proof (rnd_abs_err (f2r d * f2r a)) as E2. fold tiny in E2. rewrite uu_val in E2. rewrite <- V in E2.
  set (p := fmul d a) in *. set (z := fsub a p) in *.
  assert (E2' : Rabs (f2r p - f2r d * f2r a) <= / 100000000000000) by lra.
  assert (A2 : Rabs (f2r z - f2r p) <= 92). { apply Rabs_le_inv in E1, E2', A1, Ha. apply Rabs_le. lra. }
  destruct (fsub_fin z p F1 F) as (V2 & F2). { apply no_overflow. lra. }
  split; [exact F2|]. rewrite V2. pose proof (rnd_abs_err (f2r z - f2r p)) as E3. fold tiny in E3. rewrite uu_val in E3.
  assert (E3' : Rabs (rnd (f2r z - f2r p) - (f2r z - f2r p)) <= 11 / 1000000000000000) by lra.
  apply Rabs_le_inv in E1, E2', E3'. apply Rabs_le. lra.
Qed.

Lemma self_close (d : f64) : is_fin d = true -> Rabs (f2r d) <= 1 -> forall x : list f64,
  Forall (fun a : f64 => is_fin a = true /\ Rabs (f2r a) <= 30) x ->
  Forall (fun a : f64 => is_fin a = true) (self_row d x) /\
  Forall (fun r => Rabs r <= 5 / 100000000000000) (rsub (map f2r (self_row d x)) (axr (2 * f2r d) (map f2r x) (map f2r x))).
Proof.
  intros Fd Hd. induction x as [|a x IH]; intros Hx; [repeat split; constructor|].
  inversion Hx as [|? ? (Fa & Ba) Hx']; subst. destruct (IH Hx') as (I1 & I3). destruct (self_num a d Fa Fd Ba Hd) as (N1 & N2).
  change (self_row d (a :: x)) with (fsub (fsub a (fmul d a)) (fmul d a) :: self_row d x). split; [constructor; auto|].
  cbn [map]. change (axr (2 * f2r d) (f2r a :: map f2r x) (f2r a :: map f2r x)) with ((f2r a - 2 * f2r d * f2r a) :: axr (2 * f2r d) (map f2r x) (map f2r x)).
  change (rsub (?p :: ?q) (?r :: ?s)) with ((p - r) :: rsub q s). constructor; [exact N2|exact I3].
Qed.

Lemma self_dot (x : list f64) (d : f64) : small x -> is_fin d = true -> Rabs (f2r d) <= 1 ->
  Rabs (dot_r (self_row d x) (self_row d x) - (1 - 2 * f2r d) * (1 - 2 * f2r d) * dot_r x x) <= 2 / 100000000.
Proof.
  intros Sx Fd Hd. destruct (self_close d Fd Hd x (small_comp x Sx)) as (_ & C1). destruct Sx as (Nx & _ & Bx). rewrite len_r_rlen in Bx.
  set (dd := f2r d) in *. set (X := map f2r x) in *. assert (LX : length X = length x) by apply map_length.
  set (A := axr (2 * dd) X X) in *. set (A' := map f2r (self_row d x)) in *.
  assert (LA : length A = length x) by (unfold A; rewrite axr_length, LX; apply Nat.min_id).
  assert (LA' : length A' = length x) by (unfold A', self_row; rewrite !map_length; reflexivity).
  assert (SQ : sqrt (INR (length x)) <= 1024).
  { rewrite <- (sqrt_square 1024) by lra. apply sqrt_le_1_alt. rewrite INR_IZR_INZ. apply IZR_le in Nx. change (2 ^ 20)%Z with 1048576%Z in Nx. lra. }
  assert (EA : rlen (rsub A' A) <= 6 / 100000000000).
  { eapply Rle_trans; [apply rlen_small; [|exact C1]; lra|]. unfold rsub. rewrite map_length, combine_length, LA, LA', Nat.min_id.
    pose proof (sqrt_pos (INR (length x))). lra. }
  pose proof (Rabs_pos dd) as Pd. pose proof (rlen_pos X) as PX.
  assert (NA : rlen A <= 90). { eapply Rle_trans; [apply axr_len; reflexivity|]. rewrite Rabs_mult, (Rabs_pos_eq 2) by lra. nra. }
  assert (NA' : rlen A' <= 91). { eapply Rle_trans; [apply (rlen_triangle A' A); congruence|]. lra. }
  rewrite !dot_r_rdot. fold A' X.
  replace ((1 - 2 * dd) * (1 - 2 * dd) * rdot X X) with (rdot A A).
  2:{ unfold A. rewrite axr_dot by congruence. ring. }
  replace (rdot A' A' - rdot A A) with (rdot (rsub A' A) A' + rdot (rsub A' A) A).
  2:{ rewrite !rdot_sub by congruence. rewrite (rdot_sym A A'). ring. }
  eapply Rle_trans; [apply Rabs_triang|].
  pose proof (rcauchy (rsub A' A) A') as Q1. pose proof (rcauchy (rsub A' A) A) as Q2.
  pose proof (rlen_pos (rsub A' A)). pose proof (rlen_pos A). pose proof (rlen_pos A').
  assert (rlen (rsub A' A) * rlen A' <= 6 / 100000000000 * 91) by (apply Rmult_le_compat; lra).
  assert (rlen (rsub A' A) * rlen A <= 6 / 100000000000 * 90) by (apply Rmult_le_compat; lra). lra.
Qed.

(** The step in exact arithmetic, with a factor [d] close to [rate * e]; [N] is the squared length. *)
Lemma self_shrink rate e N f d : 0 <= rate <= 1 -> 0 <= N <= 900 -> e = N - f -> rate * (2 * N + Rabs e) <= 1 / 2 ->
  Rabs (d - rate * e) <= 3 / 10000000 * rate + / 1000000000000 ->
  Rabs ((1 - 2 * d) * (1 - 2 * d) * N - f) <= (1 - rate * (2 * N)) * Rabs e + 9 / 10000000.
Proof.
  intros Hr HN He Hg Hd. pose proof (Rabs_pos e) as Pe. set (E := Rabs e) in *.
  set (th := d - rate * e) in *. assert (D : d = rate * e + th) by (unfold th; ring). rewrite D. clear D.
  set (u := rate * e). assert (RN : 0 <= rate * N) by (apply Rmult_le_pos; lra). assert (RE : 0 <= rate * E) by (apply Rmult_le_pos; lra).
  assert (SU : rate * (2 * N) + rate * E <= 1 / 2) by (rewrite <- Rmult_plus_distr_l; exact Hg).
  assert (AU : Rabs u = rate * E) by (unfold u; rewrite Rabs_mult, (Rabs_pos_eq rate) by lra; reflexivity).
  assert (BU : - (rate * E) <= u <= rate * E) by (rewrite <- AU; apply Rabs_le_inv, Rle_refl).
  (* without the rounding of d *)
  assert (M : Rabs ((1 - 2 * u) * (1 - 2 * u) * N - f) <= (1 - rate * (2 * N)) * E).
  { replace ((1 - 2 * u) * (1 - 2 * u) * N - f) with ((1 - 4 * (rate * N) * (1 - u)) * e) by (rewrite He; unfold u; rewrite He; ring).
    rewrite Rabs_mult. fold E. apply Rmult_le_compat_r; [exact Pe|]. set (t := rate * N) in *. replace (rate * (2 * N)) with (2 * t) in * by (unfold t; ring).
    clearbody t u. assert (K1 : 1 / 2 <= 1 - u) by lra. assert (K2 : 1 - u <= 3 / 2 - 2 * t) by lra.
    assert (L1 : t * (1 / 2) <= t * (1 - u)) by (apply Rmult_le_compat_l; lra).
    assert (L2 : t * (1 - u) <= t * (3 / 2 - 2 * t)) by (apply Rmult_le_compat_l; lra).
    assert (L3 : 0 <= t * t) by (apply Rmult_le_pos; lra). apply Rabs_le. lra. }
  (* its rounding *)
  assert (T : Rabs (4 * th * (2 * u - 1 + th) * N) <= 9 / 10000000).
  { pose proof (Rabs_pos th) as Pt. set (t := Rabs th) in *. assert (TN : t * N <= 3 / 10000000 * (1 / 4) + / 1000000000000 * 900).
    { apply Rle_trans with ((3 / 10000000 * rate + / 1000000000000) * N); [apply Rmult_le_compat_r; lra|]. rewrite Rmult_plus_distr_r. apply Rplus_le_compat; [rewrite Rmult_assoc; lra|lra]. }
    assert (t <= / 1000000) by lra.
    assert (W : Rabs (2 * u - 1 + th) <= 2 + / 1000000). { assert (- t <= th <= t) by (unfold t; apply Rabs_le_inv, Rle_refl). apply Rabs_le. lra. }
    rewrite !Rabs_mult, (Rabs_pos_eq 4), (Rabs_pos_eq N) by lra. fold t.
    replace (4 * t * Rabs (2 * u - 1 + th) * N) with (4 * (t * N) * Rabs (2 * u - 1 + th)) by ring.
    assert (0 <= t * N) by (apply Rmult_le_pos; lra). pose proof (Rabs_pos (2 * u - 1 + th)).
    apply Rle_trans with (4 * (3 / 10000000 * (1 / 4) + / 1000000000000 * 900) * (2 + / 1000000)); [apply Rmult_le_compat; lra|lra]. }
  replace ((1 - 2 * (u + th)) * (1 - 2 * (u + th)) * N - f) with (((1 - 2 * u) * (1 - 2 * u) * N - f) + 4 * th * (2 * u - 1 + th) * N) by ring.
  eapply Rle_trans; [apply Rabs_triang|]. lra.
Qed.

(** The error after the update. *)
Lemma self_error (x : list f64) (f lr : f64) : small x -> small1 f -> is_fin lr = true -> gentle (f2r lr) (lex_size x x) (lex_error f x x) ->
  let d := fmul (fsub (dot x x) f) lr in
  Rabs (lex_error f (self_row d x) (self_row d x)) <= (1 - f2r lr * lex_size x x) * Rabs (lex_error f x x) + / 1000000.
Proof.
  intros Sx Bf Fl (He & Hg) d. destruct (lex_factor lr f x x eq_refl Sx Sx Bf Fl He) as (Fd & Ed). fold d in Fd, Ed.
  assert (NN : dot_r x x = len_r x * len_r x) by (rewrite len_r_rlen, rlen_sq, dot_r_rdot; reflexivity).
  assert (PL : 0 <= len_r x) by (rewrite len_r_rlen; apply rlen_pos).
  assert (BN : 0 <= dot_r x x <= 900). { destruct Sx as (_ & _ & B). rewrite NN. split; [apply Rmult_le_pos; lra|]. replace 900 with (30 * 30) by ring. apply Rmult_le_compat; lra. }
  assert (SZ : lex_size x x = 2 * dot_r x x) by (unfold lex_size; ring). rewrite SZ in *.
  set (rate := f2r lr) in *. set (e := lex_error f x x) in *.
  assert (BE : Rabs (f2r d) <= 1).
  { assert (Rabs (rate * e) <= 1 / 2). { rewrite Rabs_mult, (Rabs_pos_eq rate) by lra. assert (0 <= rate * (2 * dot_r x x)) by (apply Rmult_le_pos; lra). lra. }
    replace (f2r d) with ((f2r d - rate * e) + rate * e) by ring. eapply Rle_trans; [apply Rabs_triang|]. lra. }
  pose proof (self_dot x d Sx Fd BE) as HV.
  pose proof (self_shrink rate e (dot_r x x) (f2r f) (f2r d) He BN eq_refl Hg Ed) as HS.
  set (K := (1 - rate * (2 * dot_r x x)) * Rabs e) in *. clearbody K. unfold lex_error.
  apply Rabs_le_inv in HV, HS. apply Rabs_le. lra.
Qed.

(** C117. A LexVec update of a row with itself (a word next to itself): if rate * (2|x|^2 + |error|) is
    at most 1/2, the error |x|^2 - f shrinks by the factor 1 - 2*rate*|x|^2, up to a millionth. *)
Theorem C117_self : forall dim rows a lr f m', all_len dim rows -> (a < length rows)%nat ->
  let x := nth a rows [] in
  small x -> small1 f -> is_fin lr = true -> gentle (f2r lr) (lex_size x x) (lex_error f x x) ->
  lex_update (Z.of_nat dim) lr (Z.of_nat a) (Z.of_nat a) f (of_rows dim rows) = Ret m' ->
  exists x', m' = of_rows dim (upd rows a x') /\ length x' = dim /\ Forall (fun u : f64 => is_fin u = true) x' /\
    Rabs (lex_error f x' x') <= (1 - f2r lr * lex_size x x) * Rabs (lex_error f x x) + / 10 ^ 6.
Proof.
  intros dim rows a lr f m' HA H1 x Sx Bf Fl (He & Hg) HR.
  rewrite (Lexvec.update_lemma dim lr rows a a f HA H1 H1) in HR. unfold lex_step in HR. cbv zeta in HR. fold x in HR. rewrite Nat.eqb_refl in HR. injection HR as <-.
  set (d := fmul (fsub (dot x x) f) lr) in *. exists (self_row d x). split; [reflexivity|].
  assert (Lx : length x = dim) by (apply Word2vec.all_len_nth; auto). split; [unfold self_row; rewrite map_length; exact Lx|].
  destruct (lex_factor lr f x x eq_refl Sx Sx Bf Fl He) as (Fd & Ed). fold d in Fd, Ed.
  assert (NN : dot_r x x = len_r x * len_r x) by (rewrite len_r_rlen, rlen_sq, dot_r_rdot; reflexivity).
  assert (PL : 0 <= len_r x) by (rewrite len_r_rlen; apply rlen_pos).
  assert (BN : 0 <= dot_r x x <= 900). { destruct Sx as (_ & _ & B). rewrite NN. split; [apply Rmult_le_pos; lra|]. replace 900 with (30 * 30) by ring. apply Rmult_le_compat; lra. }
  assert (SZ : lex_size x x = 2 * dot_r x x) by (unfold lex_size; ring). rewrite SZ in *.
  set (rate := f2r lr) in *. set (e := lex_error f x x) in *.
  assert (BE : Rabs (f2r d) <= 1).
  { assert (Rabs (rate * e) <= 1 / 2). { rewrite Rabs_mult, (Rabs_pos_eq rate) by lra. assert (0 <= rate * (2 * dot_r x x)) by (apply Rmult_le_pos; lra). lra. }
    replace (f2r d) with ((f2r d - rate * e) + rate * e) by ring. eapply Rle_trans; [apply Rabs_triang|]. lra. }
  split; [exact (proj1 (self_close d Fd BE x (small_comp x Sx)))|].
  pose proof (self_dot x d Sx Fd BE) as HV.
  pose proof (self_shrink rate e (dot_r x x) (f2r f) (f2r d) He BN eq_refl Hg Ed) as HS.
  set (K := (1 - rate * (2 * dot_r x x)) * Rabs e) in *. clearbody K. replace (10 ^ 6) with 1000000 by (cbn; ring). unfold lex_error.
  apply Rabs_le_inv in HV, HS. apply Rabs_le. lra.
Qed.
Print Assumptions C117_self.

(** ** Again and again *)
Lemma self_len (x : list f64) (d : f64) : small x -> is_fin d = true -> Rabs (f2r d) <= 1 / 2 ->
  len_r (self_row d x) <= len_r x + 2 * Rabs (f2r d) * len_r x + 6 / 100000000000 /\
  len_r x <= len_r (self_row d x) + 2 * Rabs (f2r d) * len_r x + 6 / 100000000000.
Proof.
  intros Sx Fd Hd. destruct (self_close d Fd ltac:(lra) x (small_comp x Sx)) as (_ & C1). destruct Sx as (Nx & _ & Bx). rewrite !len_r_rlen in *.
  set (dd := f2r d) in *. set (X := map f2r x) in *. assert (LX : length X = length x) by apply map_length.
  set (A := axr (2 * dd) X X) in *. set (A' := map f2r (self_row d x)) in *.
  assert (LA : length A = length x) by (unfold A; rewrite axr_length, LX; apply Nat.min_id).
  assert (LA' : length A' = length x) by (unfold A', self_row; rewrite !map_length; reflexivity).
  assert (SQ : sqrt (INR (length x)) <= 1024).
  { rewrite <- (sqrt_square 1024) by lra. apply sqrt_le_1_alt. rewrite INR_IZR_INZ. apply IZR_le in Nx. change (2 ^ 20)%Z with 1048576%Z in Nx. lra. }
  assert (EA : rlen (rsub A' A) <= 6 / 100000000000).
  { eapply Rle_trans; [apply rlen_small; [|exact C1]; lra|]. unfold rsub. rewrite map_length, combine_length, LA, LA', Nat.min_id.
    pose proof (sqrt_pos (INR (length x))). lra. }
  pose proof (rlen_triangle A' A ltac:(congruence)) as T1. pose proof (rlen_triangle A A' ltac:(congruence)) as T2. rewrite (rsub_swap A A') in T2 by congruence.
  pose proof (axr_len (2 * dd) X X eq_refl) as N1. fold A in N1. rewrite Rabs_mult, (Rabs_pos_eq 2) in N1 by lra.
  assert (EA2 : rlen A = (1 - 2 * dd) * rlen X).
  { assert (P : 0 <= 1 - 2 * dd) by (apply Rabs_le_inv in Hd; lra). apply Rsqr_inj; [apply rlen_pos|apply Rmult_le_pos; [exact P|apply rlen_pos]|].
    rewrite Rsqr_mult. unfold Rsqr. rewrite !rlen_sq. unfold A. rewrite axr_dot by congruence. ring. }
  assert (dd * rlen X <= Rabs dd * rlen X) by (apply Rmult_le_compat_r; [apply rlen_pos|apply Rle_abs]). split; [lra|]. lra.
Qed.

Lemma upd_at {A} (d z : A) : forall (l : list A) k, (k < length l)%nat -> nth k (upd l k z) d = z.
Proof. induction l as [|r l IH]; intros [|k] H; cbn in *; try lia; [reflexivity|]. apply IH. lia. Qed.

Definition self_roomy (L0 E0 m : R) (k : nat) (f : f64) (x : list f64) : Prop :=
  let q := 4 / (m * m) in let e := Rabs (lex_error f x x) in let T := q * e + INR k * (q + 1) / 100000 in
  (len_r x + 1) * exp T <= L0 /\ m * exp (2 * T) <= len_r x /\ e + INR k / 100000 <= E0.

(** What the room says now. *)
Lemma self_now L0 E0 m k f x : / 1000 <= m -> self_roomy L0 E0 m k f x -> m <= len_r x /\ len_r x + 1 <= L0 /\ Rabs (lex_error f x x) <= E0.
Proof.
  intros Hm (RL & RM & RE). pose proof (pos_INR k) as Pk. pose proof (Rabs_pos (lex_error f x x)) as Pe. assert (MM : 0 < m * m) by nra.
  assert (Pq : 0 < 4 / (m * m)) by (apply Rdiv_lt_0_compat; lra). set (q := 4 / (m * m)) in *. set (T := q * _ + _) in *.
  assert (PT : 0 <= T). { unfold T. pose proof (Rmult_le_pos q (Rabs (lex_error f x x))). pose proof (Rmult_le_pos (INR k) (q + 1)). lra. }
  pose proof (exp_1 T). pose proof (exp_1 (2 * T)). assert (Plx : 0 <= len_r x) by (rewrite len_r_rlen; apply rlen_pos).
  split; [|split; [|lra]].
  - eapply Rle_trans; [|exact RM]. rewrite <- (Rmult_1_r m) at 1. apply Rmult_le_compat_l; lra.
  - eapply Rle_trans; [|exact RL]. rewrite <- (Rmult_1_r (len_r x + 1)) at 1. apply Rmult_le_compat_l; lra.
Qed.

Lemma self_many dim lr f L0 E0 m a : small1 f -> is_fin lr = true -> 0 < 2 * f2r lr <= 1 -> / 1000 <= m -> L0 <= 30 -> 2 * f2r lr * (L0 * L0 + E0) <= 1 / 4 ->
  forall (l : list nat) rows, all_len dim rows -> (a < length rows)%nat ->
  finite_row (nth a rows []) -> self_roomy L0 E0 m (length l) f (nth a rows []) ->
  let c := 2 * f2r lr * (m * m) in
  exists x', ofold (fun (_ : nat) mm => lex_update (Z.of_nat dim) lr (Z.of_nat a) (Z.of_nat a) f mm) l (of_rows dim rows) = Ret (of_rows dim (upd rows a x')) /\
    length x' = dim /\ finite_row x' /\ m <= len_r x' /\
    Rabs (lex_error f x' x') <= (1 - c) ^ length l * Rabs (lex_error f (nth a rows []) (nth a rows [])) + (1 - (1 - c) ^ length l) * (/ 1000000 / c).
Proof.
  intros Bf Fl Hr Hm HL HG. induction l as [|i l IH]; intros rows HA H1 Fx HR c; set (x := nth a rows []) in *;
  assert (Lx : length x = dim) by (apply Word2vec.all_len_nth; auto); destruct (self_now _ _ _ _ _ _ Hm HR) as (MS & ML & ME).
  - exists x. split. { cbn [ofold]. unfold x. rewrite upd_nth. reflexivity. }
    split; [exact Lx|]. split; [exact Fx|]. split; [exact MS|]. cbn [length pow]. lra.
  - cbn [length] in HR. set (rate := f2r lr) in *. destruct Fx as (Nx & Vx). set (e := lex_error f x x) in *. pose proof (Rabs_pos e) as Pe. pose proof (pos_INR (length l)) as Pk.
    assert (Sx : small x) by (split; [exact Nx|split; [exact Vx|lra]]). set (lx := len_r x) in *. assert (Plx : 0 <= lx) by (unfold lx; rewrite len_r_rlen; apply rlen_pos).
    assert (MM : 0 < m * m) by nra. assert (XX : dot_r x x = lx * lx) by (unfold lx; rewrite len_r_rlen, rlen_sq, dot_r_rdot; reflexivity).
    assert (M2 : m * m <= lx * lx) by (apply Rmult_le_compat; lra). assert (L2 : lx * lx <= L0 * L0) by (apply Rmult_le_compat; lra).
    assert (SZ : lex_size x x = 2 * (lx * lx)) by (unfold lex_size; rewrite XX; ring).
    assert (HGE : 2 * rate * (lx * lx + Rabs e) <= 1 / 4) by (eapply Rle_trans; [|exact HG]; apply Rmult_le_compat_l; lra).
    assert (RN : 0 <= rate * (lx * lx)) by (apply Rmult_le_pos; lra). assert (RE : 0 <= rate * Rabs e) by (apply Rmult_le_pos; lra).
    assert (HGE2 : 2 * (rate * (lx * lx)) + 2 * (rate * Rabs e) <= 1 / 4) by (replace (2 * (rate * (lx * lx)) + 2 * (rate * Rabs e)) with (2 * rate * (lx * lx + Rabs e)) by ring; exact HGE).
    assert (G : gentle rate (lex_size x x) e).
    { split; [lra|]. rewrite SZ. replace (rate * (2 * (lx * lx) + Rabs e)) with (2 * (rate * (lx * lx)) + rate * Rabs e) by ring. lra. }
    assert (U : lex_update (Z.of_nat dim) lr (Z.of_nat a) (Z.of_nat a) f (of_rows dim rows) = Ret (of_rows dim (upd rows a (self_row (fmul (fsub (dot x x) f) lr) x)))).
    { rewrite (Lexvec.update_lemma dim lr rows a a f HA H1 H1). unfold lex_step. cbv zeta. rewrite Nat.eqb_refl. reflexivity. }
    destruct (lex_factor lr f x x eq_refl Sx Sx Bf Fl ltac:(fold rate; lra)) as (Fd & Ed).
    set (d := fmul (fsub (dot x x) f) lr) in *. fold rate e in Ed.
    assert (AD : Rabs (f2r d) <= rate * Rabs e + 3 / 10000000 * rate + / 1000000000000).
    { replace (f2r d) with ((f2r d - rate * e) + rate * e) by ring. eapply Rle_trans; [apply Rabs_triang|]. rewrite (Rabs_mult rate e), (Rabs_pos_eq rate) by lra. lra. }
    assert (HD : Rabs (f2r d) <= 13 / 100) by lra. pose proof (Rabs_pos (f2r d)) as Pd.
    pose proof (self_error x f lr ltac:(exact Sx) Bf Fl G) as E. cbv zeta in E. fold d rate e in E. rewrite SZ in E.
    destruct (self_close d Fd ltac:(lra) x (small_comp x Sx)) as (Vx' & _). destruct (self_len x d Sx Fd ltac:(lra)) as (N1 & N2). fold lx in N1, N2.
    set (x1 := self_row d x) in *. assert (Lx1 : length x1 = dim) by (unfold x1, self_row; rewrite map_length; exact Lx).
    assert (Px1 : 0 <= len_r x1) by (rewrite len_r_rlen; apply rlen_pos). pose proof (Rabs_pos (lex_error f x1 x1)) as Pe1.
    assert (Cc : c = 2 * (rate * (m * m))) by (unfold c; ring). assert (CM : rate * (m * m) <= rate * (lx * lx)) by (apply Rmult_le_compat_l; lra).
    assert (P0 : 0 < rate * (m * m)) by (apply Rmult_lt_0_compat; lra).
    assert (E' : Rabs (lex_error f x1 x1) <= (1 - c) * Rabs e + / 1000000).
    { eapply Rle_trans; [exact E|]. apply Rplus_le_compat_r. apply Rmult_le_compat_r; [exact Pe|]. rewrite Cc. lra. }
    assert (CE : 0 <= c * Rabs e) by (apply Rmult_le_pos; lra).
    assert (HR' : self_roomy L0 E0 m (length l) f x1).
    { unfold self_roomy in HR. rewrite S_INR in HR. destruct HR as (RL & RM & RE0). fold lx e in RL, RM, RE0. set (q := 4 / (m * m)) in *.
      destruct (lex_budget (2 * rate) m (lx / 2) (lx / 2) (len_r x1 / 2) (len_r x1 / 2) (Rabs e) (Rabs (lex_error f x1 x1)) (2 * Rabs (f2r d)) q (INR (length l)) Hm eq_refl Hr) as (B1 & B2); try lra.
      { eapply Rle_trans; [exact E'|]. apply Rplus_le_compat_r. apply Rmult_le_compat_r; [exact Pe|]. rewrite Cc. lra. }
      unfold self_roomy. fold q. replace (lx / 2 + lx / 2) with lx in * by field. replace (len_r x1 / 2 + len_r x1 / 2) with (len_r x1) in * by field.
      split; [lra|]. split; [apply B2; exact RM|]. lra. }
    assert (Fx1 : finite_row x1) by (split; [rewrite Lx1, <- Lx; exact Nx|exact Vx']).
    assert (NX : nth a (upd rows a x1) [] = x1).
    { apply upd_at. exact H1. }
    destruct (IH (upd rows a x1) (Word2vec.all_len_upd _ _ _ _ HA Lx1) ltac:(rewrite ListFacts.upd_length; exact H1)) as (x2 & R & Q1 & Q2 & Q3 & Q4); [rewrite NX; exact Fx1|rewrite NX; exact HR'|].
    rewrite NX in Q4. exists x2. split. { cbn [ofold]. rewrite U. cbn [obind]. fold x1. rewrite R. rewrite upd_same. reflexivity. }
    split; [exact Q1|]. split; [exact Q2|]. split; [exact Q3|]. fold rate c in Q4. eapply Rle_trans; [exact Q4|].
    assert (Cpos : 0 < c <= 1) by (rewrite Cc; lra).
    set (e1 := Rabs (lex_error f x1 x1)) in *. set (e0 := Rabs e) in *. clearbody e1 e0. clear Cc. clearbody c. cbn [length pow].
    assert (P : 0 <= (1 - c) ^ length l) by (apply pow_le; lra). set (w := (1 - c) ^ length l) in *. clearbody w.
    assert (K : w * e1 <= w * ((1 - c) * e0 + / 1000000)) by (apply Rmult_le_compat_l; auto).
    set (kk := / 1000000 / c). assert (EK : / 1000000 = c * kk) by (unfold kk; field; lra). rewrite EK in K. clearbody kk. lra.
Qed.

(** C117. [n] such updates, with room for them: the error is at most (1 - 2*rate*m^2)^n times what it was,
    plus 10^-6 / (2*rate*m^2) for rounding. *)
Theorem C117_repeat : forall dim rows a lr f m n, all_len dim rows -> (a < length rows)%nat ->
  let x := nth a rows [] in let c := 2 * f2r lr * (m * m) in
  finite_row x -> small1 f -> is_fin lr = true -> self_room (f2r lr) m n f x ->
  exists x',
    ofold (fun (_ : nat) mm => lex_update (Z.of_nat dim) lr (Z.of_nat a) (Z.of_nat a) f mm) (seq 0 n) (of_rows dim rows) = Ret (of_rows dim (upd rows a x')) /\
    length x' = dim /\ finite_row x' /\ m <= len_r x' /\
    Rabs (lex_error f x' x') <= (1 - c) ^ n * Rabs (lex_error f x x) + / 10 ^ 6 / c.
Proof.
  intros dim rows a lr f m n HA H1 x c Fx Bf Fl HR. unfold self_room in HR. cbv zeta in HR. replace (10 ^ 5) with 100000 in HR by (cbn; ring). replace (10 ^ 6) with 1000000 by (cbn; ring).
  set (T := 4 / (m * m) * Rabs (lex_error f x x) + INR n * (4 / (m * m) + 1) / 100000) in HR. set (L0 := (len_r x + 1) * exp T) in *.
  set (E0 := Rabs (lex_error f x x) + INR n / 100000). destruct HR as (Hr & Hm & RM & HL & HG).
  assert (RY : self_roomy L0 E0 m (length (seq 0 n)) f x).
  { unfold self_roomy. rewrite seq_length. fold T. split; [apply Rle_refl|]. split; [exact RM|]. apply Rle_refl. }
  destruct (self_many dim lr f L0 E0 m a Bf Fl Hr Hm HL ltac:(unfold E0; lra) (seq 0 n) rows HA H1 Fx RY) as (x' & R & Q1 & Q2 & Q3 & Q4).
  fold x c in Q4. rewrite seq_length in Q4. exists x'. split; [exact R|]. split; [exact Q1|]. split; [exact Q2|]. split; [exact Q3|].
  eapply Rle_trans; [exact Q4|]. destruct (self_now _ _ _ _ _ _ Hm RY) as (MS & ML & ME).
  assert (MM : 0 < m * m) by nra. assert (Plx : 0 <= len_r x) by (rewrite len_r_rlen; apply rlen_pos). pose proof (Rabs_pos (lex_error f x x)) as Pe.
  assert (Cpos : 0 < c <= 1).
  { unfold c. split; [apply Rmult_lt_0_compat; lra|]. assert (m * m <= L0 * L0) by (apply Rmult_le_compat; lra). pose proof (pos_INR n).
    assert (2 * f2r lr * (m * m) <= 2 * f2r lr * (L0 * L0 + Rabs (lex_error f x x) + INR n / 100000)) by (apply Rmult_le_compat_l; lra). lra. }
  assert (0 <= (1 - c) ^ n) by (apply pow_le; lra).
  assert (0 <= / 1000000 / c) by (unfold Rdiv; apply Rmult_le_pos; [lra|left; apply Rinv_0_lt_compat; lra]). nra.
Qed.
Print Assumptions C117_repeat.

(** Non-vacuous: the row (1), the value 1/2 and the learning rate 1/16. *)
Example C117_case : let lr := fdiv (f_of_Z 1) (f_of_Z 16) in let x := [f_of_Z 1] in let f := fdiv (f_of_Z 1) (f_of_Z 2) in
  small x /\ small1 f /\ is_fin lr = true /\ gentle (f2r lr) (lex_size x x) (lex_error f x x) /\ lex_error f x x = 1 / 2 /\
  exists m, lex_update 1 lr 0 0 f (of_rows 1 [x]) = Ret m.
Proof.
  cbv zeta. set (lr := fdiv (f_of_Z 1) (f_of_Z 16)). set (f := fdiv (f_of_Z 1) (f_of_Z 2)).
  assert (EL : is_fin lr = true /\ f2r lr = / 16).
  { assert (V : fshow lr = Some (2 ^ 52, -56)%Z) by (vm_compute; reflexivity). destruct (fshow_spec _ _ _ V) as (F & E). split; [exact F|]. rewrite E.
    change (2 ^ 52)%Z with 4503599627370496%Z. change (bpow radix2 (-56)) with (/ 72057594037927936). lra. }
  assert (EF : is_fin f = true /\ f2r f = / 2).
  { assert (V : fshow f = Some (2 ^ 52, -53)%Z) by (vm_compute; reflexivity). destruct (fshow_spec _ _ _ V) as (F & E). split; [exact F|]. rewrite E.
    change (2 ^ 52)%Z with 4503599627370496%Z. change (bpow radix2 (-53)) with (/ 9007199254740992). lra. }
  destruct EL as (FL & VL). destruct EF as (FF & VF). destruct (f_of_Z_exact 1) as (V1 & F1); [lia|].
  assert (D : dot_r [f_of_Z 1] [f_of_Z 1] = 1) by (unfold dot_r; cbn [combine map fold_right fst snd]; rewrite V1; ring).
  assert (E : lex_error f [f_of_Z 1] [f_of_Z 1] = 1 / 2) by (unfold lex_error; rewrite D, VF; lra).
  assert (LN : len_r [f_of_Z 1] = 1) by (unfold len_r; rewrite D; apply sqrt_1).
  split. { split; [cbn; lia|]. split; [constructor; [exact F1|constructor]|rewrite LN; lra]. }
  split. { split; [exact FF|]. rewrite VF, Rabs_pos_eq; lra. }
  split; [exact FL|]. split. { unfold gentle. rewrite E, VL. unfold lex_size. rewrite D, Rabs_pos_eq by lra. lra. }
  split; [exact E|]. eexists. apply (Lexvec.update_lemma 1 lr [[f_of_Z 1]] 0 0 f); [repeat constructor|cbn; lia|cbn; lia].
Qed.

(** Non-vacuous: the row (5), the value 49/2 and the learning rate 1/2048, for 1000 updates. *)
Example C117_repeat_case : let lr := fdiv (f_of_Z 1) (f_of_Z 2048) in let x := [f_of_Z 5] in let f := fdiv (f_of_Z 49) (f_of_Z 2) in
  finite_row x /\ small1 f /\ is_fin lr = true /\ self_room (f2r lr) 3 1000 f x /\ lex_error f x x = 1 / 2.
Proof.
  cbv zeta. set (lr := fdiv (f_of_Z 1) (f_of_Z 2048)). set (f := fdiv (f_of_Z 49) (f_of_Z 2)).
  assert (EL : is_fin lr = true /\ f2r lr = / 2048).
  { assert (V : fshow lr = Some (2 ^ 52, -63)%Z) by (vm_compute; reflexivity). destruct (fshow_spec _ _ _ V) as (F & E). split; [exact F|]. rewrite E.
    change (2 ^ 52)%Z with 4503599627370496%Z. change (bpow radix2 (-63)) with (/ 9223372036854775808). lra. }
  destruct EL as (FL & VL). destruct (f_of_Z_exact 5) as (V8 & F8); [lia|].
  assert (EF : is_fin f = true /\ f2r f = 49 / 2).
  { assert (V : fshow f = Some (6896136929411072, -48)%Z) by (vm_compute; reflexivity). destruct (fshow_spec _ _ _ V) as (F & E). split; [exact F|]. rewrite E.
    change (bpow radix2 (-48)) with (/ 281474976710656). lra. }
  destruct EF as (FF & VF).
  assert (D : dot_r [f_of_Z 5] [f_of_Z 5] = 25) by (unfold dot_r; cbn [combine map fold_right fst snd]; rewrite V8; ring).
  assert (E : lex_error f [f_of_Z 5] [f_of_Z 5] = 1 / 2) by (unfold lex_error; rewrite D, VF; lra).
  assert (LN : len_r [f_of_Z 5] = 5). { unfold len_r. rewrite D. replace 25 with (5 * 5) by ring. apply sqrt_square. lra. }
  split. { split; [cbn; lia|]. constructor; [exact F8|constructor]. }
  split. { split; [exact FF|]. rewrite VF, Rabs_pos_eq; lra. }
  split; [exact FL|]. split; [|exact E]. unfold self_room. cbv zeta. rewrite E, LN, VL, (Rabs_pos_eq (1 / 2)) by lra. replace (10 ^ 5) with 100000 by (cbn; ring).
  replace (INR 1000) with 1000 by (rewrite INR_IZR_INZ; reflexivity).
  set (T := 4 / (3 * 3) * (1 / 2) + 1000 * (4 / (3 * 3) + 1) / 100000). assert (TV : T = 71 / 300) by (unfold T; field). rewrite TV. clear T TV.
  assert (X : exp (71 / 300) <= (900 / 829) ^ 3).
  { replace (71 / 300) with (71 / 900 + 71 / 900 + 71 / 900) by field. rewrite !exp_plus. assert (P : 0 < exp (71 / 900)) by apply exp_pos.
    assert (B : exp (71 / 900) <= 900 / 829).
    { pose proof (exp_1 (- (71 / 900))) as H. rewrite exp_Ropp in H. apply Rmult_le_reg_r with (/ exp (71 / 900)); [apply Rinv_0_lt_compat; exact P|]. rewrite Rinv_r by lra. lra. }
    set (z := exp (71 / 900)) in *. clearbody z. replace ((900 / 829) ^ 3) with (900 / 829 * (900 / 829) * (900 / 829)) by ring. apply Rmult_le_compat; [|lra| |exact B]; [apply Rmult_le_pos; lra|apply Rmult_le_compat; lra]. }
  assert (X2 : exp (2 * (71 / 300)) = exp (71 / 300) * exp (71 / 300)) by (rewrite <- exp_plus; f_equal; lra). rewrite X2.
  pose proof (exp_pos (71 / 300)) as P. set (z := exp (71 / 300)) in *. clearbody z. assert (ZB : z <= 1280 / 1000) by (eapply Rle_trans; [exact X|]; lra).
  assert (Z2 : z * z <= 1280 / 1000 * (1280 / 1000)) by (apply Rmult_le_compat; lra).
  split; [lra|]. split; [lra|]. split; [lra|]. split; [lra|]. replace ((5 + 1) * z * ((5 + 1) * z)) with (36 * (z * z)) by ring. lra.
Qed.
