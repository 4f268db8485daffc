(** * Cosines of perturbed vectors, and of vectors that went through a file *)
From Coq Require Import Reals Lra Lia List ZArith.
From Flocq Require Import Core BinarySingleNaN.
From Verif.Lib Require Import Go F64 F64Facts.
From Verif.Spec Require Import Cosine Decimal.
From Verif.Model Require Import FmtFloat Embedding Search.
From Verif.Proofs Require Import Cosine FmtFloat.
Import ListNotations.
Local Open Scope R_scope.

Lemma f2_length {A B} {P : A -> B -> Prop} {l l'} : Forall2 P l l' -> length l = length l'.
Proof. induction 1; cbn [length]; congruence. Qed.

Definition rdot (a b : list R) : R := fold_right Rplus 0 (map (fun p => fst p * snd p) (combine a b)).
Definition rlen (a : list R) : R := sqrt (rdot a a).
Definition rsub (a b : list R) : list R := map (fun p => fst p - snd p) (combine a b).

Lemma rdot_cons x a y b : rdot (x :: a) (y :: b) = x * y + rdot a b. Proof. reflexivity. Qed.
Lemma rdot_sq a : 0 <= rdot a a.
Proof. induction a as [|x a IH]; [apply Rle_refl|]. rewrite rdot_cons. pose proof (Rle_0_sqr x) as H. unfold Rsqr in H. lra. Qed.
Lemma rlen_sq a : rlen a * rlen a = rdot a a. Proof. apply sqrt_sqrt, rdot_sq. Qed.
Lemma rlen_pos a : 0 <= rlen a. Proof. apply sqrt_pos. Qed.

Lemma rcauchy_sq a : forall b, rdot a b * rdot a b <= rdot a a * rdot b b.
Proof.
  induction a as [|x a IH]; intros [|y b]; try (unfold rdot at 1 2; cbn [combine map fold_right]; rewrite Rmult_0_l; apply Rmult_le_pos; apply rdot_sq).
  rewrite !rdot_cons. specialize (IH b). pose proof (rdot_sq a) as A. pose proof (rdot_sq b) as B.
  set (U := rdot a a) in *. set (V := rdot b b) in *. set (T := rdot a b) in *. clearbody U V T.
  assert (K : 2 * (x * y * T) <= U * (y * y) + V * (x * x)).
  { assert (PA : 0 <= x * x) by apply Rle_0_sqr. assert (PB : 0 <= y * y) by apply Rle_0_sqr.
    assert (W1 : 0 <= U * (y * y)) by (apply Rmult_le_pos; lra). assert (W2 : 0 <= V * (x * x)) by (apply Rmult_le_pos; lra).
    apply Rle_trans with (Rabs (2 * (x * y * T))); [apply Rle_abs|].
    apply Rsqr_incr_0_var; [|lra]. rewrite <- Rsqr_abs. unfold Rsqr.
    assert (T * T * ((x * x) * (y * y)) <= U * V * ((x * x) * (y * y))) by (apply Rmult_le_compat_r; [apply Rmult_le_pos; lra|lra]).
    pose proof (Rle_0_sqr (U * (y * y) - V * (x * x))) as Z. unfold Rsqr in Z. nra. }
  nra.
Qed.
Lemma rcauchy a b : Rabs (rdot a b) <= rlen a * rlen b.
Proof.
  unfold rlen. rewrite <- sqrt_mult by apply rdot_sq. apply Rsqr_incr_0_var; [|apply sqrt_pos].
  rewrite <- Rsqr_abs, Rsqr_sqrt by (apply Rmult_le_pos; apply rdot_sq). apply rcauchy_sq.
Qed.

Lemma rdot_sub a : forall b c, length a = length b -> rdot (rsub a b) c = rdot a c - rdot b c.
Proof.
  induction a as [|x a IH]; intros [|y b] c HL; try discriminate HL; [unfold rdot; cbn; ring|].
  injection HL as HL. destruct c as [|z c]; [unfold rdot; rewrite !combine_nil; cbn; ring|].
  change (rsub (x :: a) (y :: b)) with ((x - y) :: rsub a b). rewrite !rdot_cons, IH by auto. ring.
Qed.
Lemma rdot_sym a : forall b, rdot a b = rdot b a.
Proof. induction a as [|x a IH]; intros [|y b]; try reflexivity. rewrite !rdot_cons, IH. ring. Qed.

Lemma rlen_triangle a b : length a = length b -> rlen a <= rlen (rsub a b) + rlen b.
Proof.
  intros HL. pose proof (rlen_pos a) as P. destruct (Req_dec (rlen a) 0) as [Z|Z].
  - rewrite Z. pose proof (rlen_pos (rsub a b)). pose proof (rlen_pos b). lra.
  - apply (Rmult_le_reg_r (rlen a)); [lra|]. rewrite rlen_sq.
    replace (rdot a a) with (rdot (rsub a b) a + rdot b a) by (rewrite rdot_sub by auto; ring).
    pose proof (rcauchy (rsub a b) a) as C1. pose proof (rcauchy b a) as C2.
    pose proof (Rle_abs (rdot (rsub a b) a)). pose proof (Rle_abs (rdot b a)). nra.
Qed.
Lemma rsub_swap a : forall b, length a = length b -> rlen (rsub a b) = rlen (rsub b a).
Proof.
  intros b HL. unfold rlen. f_equal. revert b HL. induction a as [|x a IH]; intros [|y b] HL; try discriminate HL; [reflexivity|].
  injection HL as HL. change (rsub (x :: a) (y :: b)) with ((x - y) :: rsub a b). change (rsub (y :: b) (x :: a)) with ((y - x) :: rsub b a).
  rewrite !rdot_cons, IH by auto. ring.
Qed.

(** Moving [a] to [a'] changes the cosine by at most twice the relative size of the move. *)
Lemma rcos_half a a' b : length a' = length a -> 0 < rlen a -> 0 < rlen a' -> 0 < rlen b ->
  Rabs (rdot a' b / (rlen a' * rlen b) - rdot a b / (rlen a * rlen b)) <= 2 * (rlen (rsub a' a) / rlen a).
Proof.
  intros HL Pa Pa' Pb. set (d := rlen (rsub a' a)).
  pose proof (rlen_triangle a' a HL) as T1. pose proof (rlen_triangle a a' (eq_sym HL)) as T2. rewrite (rsub_swap a a' (eq_sym HL)) in T2. fold d in T1, T2.
  pose proof (rcauchy (rsub a' a) b) as C1. fold d in C1. rewrite rdot_sub in C1 by auto. pose proof (rcauchy a' b) as C2.
  set (p := rdot a' b) in *. set (q := rdot a b) in *. set (u := rlen a) in *. set (u' := rlen a') in *. set (v := rlen b) in *.
  replace (p / (u' * v) - q / (u * v)) with ((p - q) / (u * v) + p / (u' * v) * ((u - u') / u)) by (field; lra).
  assert (Puv : 0 < u * v) by nra. assert (Puv' : 0 < u' * v) by nra.
  replace (2 * (d / u)) with (d / u + 1 * (d / u)) by ring.
  eapply Rle_trans; [apply Rabs_triang|]. apply Rplus_le_compat.
  - rewrite Rabs_div_pos by auto. apply (Rmult_le_reg_r (u * v)); [auto|]. unfold Rdiv. rewrite Rmult_assoc, Rinv_l, Rmult_1_r by lra.
    replace (d * / u * (u * v)) with (d * v) by (field; lra). exact C1.
  - rewrite Rabs_mult. apply Rmult_le_compat; try apply Rabs_pos.
    + rewrite Rabs_div_pos by auto. apply (Rmult_le_reg_r (u' * v)); [auto|]. unfold Rdiv. rewrite Rmult_assoc, Rinv_l, Rmult_1_r, Rmult_1_l by lra. exact C2.
    + rewrite Rabs_div_pos by auto. unfold Rdiv. apply Rmult_le_compat_r; [left; apply Rinv_0_lt_compat; auto|]. apply Rabs_le. lra.
Qed.

Lemma rlen_small e a : 0 <= e -> Forall (fun x => Rabs x <= e) a -> rlen a <= sqrt (INR (length a)) * e.
Proof.
  intros He F. unfold rlen. rewrite <- (sqrt_square e) by auto. rewrite <- sqrt_mult by (try apply pos_INR; nra). apply sqrt_le_1_alt.
  induction F as [|x a Hx F IH]; [cbn; lra|]. rewrite rdot_cons. cbn [length]. rewrite S_INR.
  assert (x * x <= e * e) by (apply Rabs_le_inv in Hx; assert (0 <= (e - x) * (e + x)) by (apply Rmult_le_pos; lra); nra). lra.
Qed.

(** ** Back to float64 vectors *)
Lemma dot_r_rdot u : forall v, dot_r u v = rdot (map f2r u) (map f2r v).
Proof. induction u as [|x u IH]; intros [|y v]; try reflexivity. cbn [map]. rewrite rdot_cons, <- IH. reflexivity. Qed.
Lemma len_r_rlen u : len_r u = rlen (map f2r u). Proof. unfold len_r, rlen. rewrite dot_r_rdot. reflexivity. Qed.

Lemma cos_move (u u' v v' : list f64) e : length u' = length u -> length v' = length v -> length u = length v -> 0 <= e ->
  Forall2 (fun x y => Rabs (f2r y - f2r x) <= e) u u' -> Forall2 (fun x y => Rabs (f2r y - f2r x) <= e) v v' ->
  0 < len_r u -> 0 < len_r v -> 0 < len_r u' -> 0 < len_r v' ->
  Rabs (cos_r u' v' - cos_r u v) <= 2 * sqrt (INR (length u)) * e * (/ len_r u + / len_r v).
Proof.
  assert (D : forall x y : list f64, Forall2 (fun a b => Rabs (f2r b - f2r a) <= e) x y -> 0 <= e -> rlen (rsub (map f2r y) (map f2r x)) <= sqrt (INR (length x)) * e).
  { intros x y F He. assert (L : length (rsub (map f2r y) (map f2r x)) = length x).
    { unfold rsub. rewrite map_length, combine_length, !map_length. apply Nat.min_r, Nat.eq_le_incl. exact (f2_length F). }
    rewrite <- L. apply rlen_small; auto. clear L. unfold rsub. induction F as [|a b x y H F IH]; [constructor|]. cbn [map combine]. constructor; [exact H|exact IH]. }
  intros L1 L2 L3 He F1 F2 P1 P2 P3 P4. unfold cos_r. rewrite !dot_r_rdot. rewrite !len_r_rlen in *.
  pose proof (D _ _ F1 He) as D1. pose proof (D _ _ F2 He) as D2. rewrite <- L3 in D2.
  pose proof (rcos_half (map f2r u) (map f2r u') (map f2r v') ltac:(rewrite !map_length; auto) P1 P3 P4) as H1.
  pose proof (rcos_half (map f2r v) (map f2r v') (map f2r u) ltac:(rewrite !map_length; auto) P2 P4 P1) as H2.
  rewrite !(rdot_sym _ (map f2r u)), !(Rmult_comm _ (rlen (map f2r u))) in H2.
  set (c := sqrt (INR (length u)) * e) in *.
  assert (M1 : rlen (rsub (map f2r u') (map f2r u)) / rlen (map f2r u) <= c / rlen (map f2r u)) by (apply Rmult_le_compat_r; [left; apply Rinv_0_lt_compat; auto|auto]).
  assert (M2 : rlen (rsub (map f2r v') (map f2r v)) / rlen (map f2r v) <= c / rlen (map f2r v)) by (apply Rmult_le_compat_r; [left; apply Rinv_0_lt_compat; auto|auto]).
  replace (2 * sqrt (INR (length u)) * e * (/ rlen (map f2r u) + / rlen (map f2r v))) with (2 * (c / rlen (map f2r u)) + 2 * (c / rlen (map f2r v))) by (unfold c, Rdiv; ring).
  apply Rabs_le_inv in H1. apply Rabs_le_inv in H2. apply Rabs_le. lra.
Qed.

(** ** Vectors written with six digits and read back *)
Definition reread (pf : gostring -> option f64) (x y : f64) : Prop := pf (fmt_f x) = Some y.

Lemma bp_micro : bpow radix2 (-20) <= / 1000000.
Proof. change (bpow radix2 (-20)) with (/ 1048576). lra. Qed.

Lemma reread_ord pf x y : reads_decimals pf -> reread pf x y -> is_fin x = true -> Rabs (f2r x) <= bpow radix2 399 ->
  ordinary y /\ Rabs (f2r y - f2r x) <= / 1000000.
Proof.
  intros RD E Fx Bx. destruct (round_trip pf RD x) as (y' & E' & _ & HF & _). unfold reread in E. rewrite E in E'. injection E' as <-.
  destruct (HF Fx) as (Fy & _ & (n & Dn & Vn) & C & _). rewrite pow10_6 in C, Vn. split; [|lra]. split; [exact Fy|].
  destruct (Req_dec (f2r y) 0) as [Z|Z]; [left; exact Z|right]. split.
  - rewrite Vn. assert (Hn : (1 <= Z.abs n)%Z).
    { destruct (Z.eq_dec n 0) as [->|]; [|lia]. exfalso. apply Z. unfold Rdiv in Vn. rewrite Rmult_0_l, rnd_0 in Vn.
      destruct (Rle_or_lt 0 (f2r y)); [rewrite Rabs_pos_eq in Vn by lra|rewrite Rabs_left in Vn by lra]; lra. }
    destruct (Z_lt_le_dec n 0) as [Neg|Pos].
    { exfalso. pose proof (Rabs_pos (f2r y)) as P. rewrite Vn in P.
      assert (rnd (IZR n / 1000000) <= rnd 0) as Q. { apply rnd_le. assert (IZR n <= 0) by (apply IZR_le; lia). unfold Rdiv. nra. }
      rewrite rnd_0 in Q. pose proof (Rabs_pos_lt _ Z). lra. }
    apply Rle_trans with (bpow radix2 (-20)); [apply bpow_le; lia|].
    assert (G : rnd (bpow radix2 (-20)) = bpow radix2 (-20)) by (unfold rnd; apply round_generic; [auto with typeclass_instances|]; apply generic_format_bpow; unfold SpecFloat.fexp, SpecFloat.emin; lia).
    rewrite <- G. apply rnd_le. assert (1 <= IZR n) by (apply IZR_le; lia). pose proof bp_micro. unfold Rdiv. nra.
  - replace (f2r y) with ((f2r y - f2r x) + f2r x) by ring. eapply Rle_trans; [apply Rabs_triang|].
    change (bpow radix2 400) with (bpow radix2 (399 + 1)). rewrite bpow_plus. change (bpow radix2 1) with 2.
    assert (1 <= bpow radix2 399). { change 1 with (bpow radix2 0). apply bpow_le. lia. } lra.
Qed.

Lemma dot_r_zero v : ~ nonzero v -> dot_r v v = 0.
Proof.
  intros H. unfold dot_r. induction v as [|x v IH]; [reflexivity|]. cbn [combine map fold_right fst snd].
  rewrite IH by (intros (y & Hy & Ny); apply H; exists y; split; [right; exact Hy|exact Ny]).
  destruct (Req_dec (f2r x) 0) as [Z|Z]; [rewrite Z; ring|]. exfalso. apply H. exists x. split; [left; reflexivity|exact Z].
Qed.
Lemma nonzero_len v : nonzero v <-> 0 < len_r v.
Proof.
  split.
  - intros H. destruct (Rle_or_lt (len_r v) 0) as [L|L]; [exfalso|exact L].
    assert (Z : dot_r v v = 0). { pose proof (sqrt_pos (dot_r v v)) as P. unfold len_r in L. apply sqrt_eq_0; [rewrite dot_r_rdot; apply rdot_sq|lra]. }
    destruct H as (x & Hx & Nx). unfold dot_r in Z. clear L. revert Hx Z. induction v as [|y v IH]; [intros []|]. cbn [combine map fold_right fst snd].
    intros [->|Hx] Z.
    + assert (0 <= dot_r v v) by (rewrite dot_r_rdot; apply rdot_sq). unfold dot_r in H. pose proof (Rsqr_pos_lt _ Nx). unfold Rsqr in *. lra.
    + apply IH; auto. assert (0 <= dot_r v v) by (rewrite dot_r_rdot; apply rdot_sq). unfold dot_r in H. pose proof (Rle_0_sqr (f2r y)). unfold Rsqr in *. lra.
  - intros L. destruct (List.Exists_dec (fun x => f2r x <> 0) v (fun x => match Req_EM_T (f2r x) 0 with left e => right (fun n => n e) | right n => left n end)) as [E|E].
    + apply Exists_exists in E. destruct E as (x & A & B). exists x. auto.
    + exfalso. assert (N : ~ nonzero v). { intros (x & A & B). apply E, Exists_exists. exists x. auto. }
      unfold len_r in L. rewrite (dot_r_zero v N), sqrt_0 in L. lra.
Qed.

(** A vector longer than sqrt(n) millionths is not zero after a trip through a file. *)
Lemma reread_nonzero pf (u u' : list f64) : reads_decimals pf -> Forall2 (reread pf) u u' ->
  Forall (fun x => is_fin x = true /\ Rabs (f2r x) <= bpow radix2 399) u -> sqrt (INR (length u)) / 1000000 < len_r u -> 0 < len_r u'.
Proof.
  intros RD F Fu HL. pose proof (rlen_triangle (map f2r u) (map f2r u') ltac:(rewrite !map_length; exact (f2_length F))) as T.
  rewrite <- !len_r_rlen in T.
  assert (D : rlen (rsub (map f2r u) (map f2r u')) <= sqrt (INR (length u)) * / 1000000).
  { assert (L : length (rsub (map f2r u) (map f2r u')) = length u).
    { unfold rsub. rewrite map_length, combine_length, !map_length. apply Nat.min_l, Nat.eq_le_incl. exact (f2_length F). }
    rewrite <- L. apply rlen_small; [lra|]. clear L HL T. unfold rsub. induction F as [|a b x y H F IH]; [constructor|]. inversion Fu; subst. cbn [map combine].
    constructor; [|apply IH; auto]. destruct (reread_ord pf a b RD H) as (_ & C); try tauto. cbn [fst snd]. rewrite Rabs_minus_sym. exact C. }
  unfold Rdiv in HL. lra.
Qed.

Lemma saved_cosine pf (u v u' v' : list f64) : reads_decimals pf -> length u = length v -> (Z.of_nat (length u) <= 2 ^ 20)%Z ->
  Forall2 (reread pf) u u' -> Forall2 (reread pf) v v' ->
  Forall (fun x => is_fin x = true /\ Rabs (f2r x) <= bpow radix2 399) u -> Forall (fun x => is_fin x = true /\ Rabs (f2r x) <= bpow radix2 399) v ->
  sqrt (INR (length u)) / 1000000 < len_r u -> sqrt (INR (length u)) / 1000000 < len_r v ->
  exists r, cosine u' v' (norm u') (norm v') = Ret r /\ is_fin r = true /\
    Rabs (f2r r - cos_r u v) <= 2 * sqrt (INR (length u)) / 1000000 * (/ len_r u + / len_r v) + (4 * INR (length u) + 12) * bpow radix2 (-53).
Proof.
  intros RD HL HN F1 F2 B1 B2 L1 L2.
  assert (O : forall a b : list f64, Forall2 (reread pf) a b -> Forall (fun x => is_fin x = true /\ Rabs (f2r x) <= bpow radix2 399) a ->
    Forall ordinary b /\ Forall2 (fun x y => Rabs (f2r y - f2r x) <= / 1000000) a b).
  { intros a b F. induction F as [|x y a b H F IH]; intros B; [split; constructor|]. inversion B; subst. destruct (IH ltac:(auto)) as (I1 & I2).
    destruct (reread_ord pf x y RD H) as (R1 & R2); try tauto. split; constructor; auto. }
  destruct (O _ _ F1 B1) as (O1 & C1). destruct (O _ _ F2 B2) as (O2 & C2).
  pose proof (reread_nonzero pf u u' RD F1 B1 L1) as N1. pose proof (reread_nonzero pf v v' RD F2 B2 ltac:(rewrite <- HL; exact L2)) as N2.
  pose proof (@f2_length f64 f64 _ _ _ F1) as E1. pose proof (@f2_length f64 f64 _ _ _ F2) as E2.
  destruct (cosine_close u' v' ltac:(lia) ltac:(lia) O1 O2 (proj2 (nonzero_len _) N1) (proj2 (nonzero_len _) N2)) as (r & Er & Fr & Cr).
  exists r. split; [exact Er|]. split; [exact Fr|].
  assert (Q : 0 <= sqrt (INR (length u)) / 1000000) by (pose proof (sqrt_pos (INR (length u))); unfold Rdiv; lra).
  pose proof (cos_move u u' v v' (/ 1000000) ltac:(lia) ltac:(lia) HL ltac:(lra) C1 C2 ltac:(lra) ltac:(lra) N1 N2) as M.
  rewrite <- E1 in Cr. replace (f2r r - cos_r u v) with ((f2r r - cos_r u' v') + (cos_r u' v' - cos_r u v)) by ring.
  eapply Rle_trans; [apply Rabs_triang|]. unfold Rdiv. lra.
Qed.
