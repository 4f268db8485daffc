From Coq Require Import Reals Lra.
From Flocq Require Import Core BinarySingleNaN.
From Verif.Lib Require Import Go F64 F64Facts ListFacts Tac.
From Verif.Model Require Import Matrix Cells Encode Cooc Glove.
From Verif.Spec Require Import Rows Training Cells.
From Verif.Proofs Require Import Matrix Word2vec Cells Glove.
Local Open Scope R_scope.

Lemma B2SF_inf (x : f64) s : B2SF x = SpecFloat.S754_infinity s -> x = finf s.
Proof. destruct x; cbn; intros E; try discriminate. injection E as ->. reflexivity. Qed.

Lemma square_cases t : isnan (fmul t t) = true \/ fmul t t = finf false \/ (is_fin (fmul t t) = true /\ 0 <= f2r (fmul t t)).
Proof.
  destruct (is_fin t) eqn:Ft.
  - right. pose proof (Bmult_correct 53 1024 _ _ mode_NE t t) as H. rewrite round_mode_NE in H.
    fold (rnd (f2r t * f2r t)) in H. fold (fmul t t) in H.
    destruct (Rlt_bool _ _) in H.
    + destruct H as (E & F & _). right. rewrite F, Ft. split; [reflexivity|]. rewrite E.
      rewrite <- fzero_r. apply rnd_ge_f. rewrite fzero_r. nra.
    + left. apply B2SF_inf. rewrite H. unfold binary_overflow, overflow_to_inf. rewrite xorb_nilpotent. reflexivity.
  - destruct t as [s|s| |s m e H]; try discriminate; cbn.
    + right; left. unfold fmul. cbn. rewrite xorb_nilpotent. reflexivity.
    + left. reflexivity.
Qed.

Lemma one_val : f2r (f_of_Z 1) = 1 /\ is_fin (f_of_Z 1) = true.
Proof. apply (f_of_Z_exact 1). lia. Qed.

Definition acc_ok (q : f64) : Prop := isnan q = true \/ fge q (f_of_Z 1) = true.
Definition acc_le (a b : f64) : Prop := isnan b = true \/ fle a b = true.

Lemma ge_one q : fge q (f_of_Z 1) = true -> q = finf false \/ (is_fin q = true /\ 1 <= f2r q).
Proof.
  destruct one_val as (V1 & F1). intros H. apply fge_spec in H. destruct H as (N & _ & K).
  rewrite (fkey_fin (f_of_Z 1)), V1 in K by auto.
  destruct (is_fin q) eqn:F.
  - right. split; [reflexivity|]. rewrite fkey_fin in K by auto. lra.
  - left. destruct q as [s|[]| |s m e He]; try discriminate; [|reflexivity]. cbn in K. pose proof F64MAX_pos. lra.
Qed.

Lemma inf_fge : fge (finf false) (f_of_Z 1) = true.
Proof.
  destruct one_val as (V1 & F1). apply fge_spec. split; [reflexivity|]. split; [apply fin_not_nan, F1|].
  rewrite (fkey_fin (f_of_Z 1)), V1 by auto. cbn. pose proof (f2r_bound (f_of_Z 1)) as B. rewrite V1, Rabs_pos_eq in B by lra. lra.
Qed.
Lemma fle_inf x : isnan x = false -> fle x (finf false) = true.
Proof.
  intros N. apply fle_spec. split; [auto|]. split; [reflexivity|]. cbn. pose proof F64MAX_pos.
  destruct x as [s|[]| |s m e He]; cbn; try discriminate; try lra.
  pose proof (f2r_bound (B754_finite s m e He)) as B. apply Rabs_lt_inv in B. cbn in B. lra.
Qed.

Lemma pos_sign (q : f64) : 0 < f2r q -> Bsign q = false.
Proof.
  destruct q as [s|s| |[] m e He]; intros H; try reflexivity; try (exfalso; cbn [B2R] in H; lra).
  exfalso. cbn [B2R cond_Zopp] in H. assert (F2R (Float radix2 (- Z.pos m) e) < 0) by (apply F2R_lt_0; reflexivity). lra.
Qed.

Lemma acc_step q t : acc_ok q -> acc_ok (fadd q (fmul t t)) /\ acc_le q (fadd q (fmul t t)).
Proof.
  intros HQ. assert (NN : isnan (fadd q (fmul t t)) = true -> acc_ok (fadd q (fmul t t)) /\ acc_le q (fadd q (fmul t t))).
  { intros E. split; left; exact E. }
  destruct HQ as [HQ|HQ].
  - apply NN. destruct q; try discriminate. reflexivity.
  - destruct (square_cases t) as [S|[S|(F & P)]].
    + apply NN. destruct (fmul t t); try discriminate. destruct q as [s|[]| |s m e H]; reflexivity.
    + rewrite S. assert (E : fadd q (finf false) = finf false).
      { destruct (ge_one q HQ) as [->|(Fq & _)]; [reflexivity|]. destruct q; try discriminate; reflexivity. }
      rewrite E. split; [right; apply inf_fge|right; apply fle_inf]. apply fge_spec in HQ. tauto.
    + destruct (ge_one q HQ) as [->|(Fq & Pq)].
      * assert (E : fadd (finf false) (fmul t t) = finf false) by (destruct (fmul t t); try discriminate; reflexivity).
        rewrite E. split; [right; apply inf_fge|right; apply fle_inf; reflexivity].
      * pose proof (Bplus_correct 53 1024 _ _ mode_NE q (fmul t t) Fq F) as H. rewrite round_mode_NE in H.
        fold (rnd (f2r q + f2r (fmul t t))) in H. fold (fadd q (fmul t t)) in H.
        destruct (Rlt_bool _ _) in H.
        -- destruct H as (E & Fs & _).
           assert (GE : f2r q <= f2r (fadd q (fmul t t))) by (rewrite E; apply rnd_ge_f; lra).
           destruct one_val as (V1 & F1).
           split; right; [apply fge_spec|apply fle_spec]; (split; [apply fin_not_nan; auto|]; split; [apply fin_not_nan; auto|]);
             rewrite !fkey_fin by auto; rewrite ?V1; lra.
        -- destruct H as (H & Hs). pose proof (pos_sign q ltac:(lra)) as H0.
           rewrite H0 in H. apply B2SF_inf in H. rewrite H.
           split; [right; apply inf_fge|right; apply fle_inf, fin_not_nan, Fq].
Qed.

Lemma acc_le_refl q : acc_le q q.
Proof.
  unfold acc_le. destruct (isnan q) eqn:E; [auto|]. right. apply fle_spec. repeat split; auto. lra.
Qed.
Lemma acc_le_trans a b c : acc_le a b -> acc_le b c -> acc_le a c.
Proof.
  unfold acc_le. intros [H|H] [K|K]; auto.
  - apply fle_spec in K. destruct K as (K & _). congruence.
  - right. apply fle_spec in H. apply fle_spec in K. apply fle_spec. destruct H as (? & ? & ?), K as (? & ? & ?). repeat split; auto. lra.
Qed.

Lemma acc_sqrt q : acc_ok q -> isnan (fsqrt q) = true \/ fge (fsqrt q) (f_of_Z 1) = true.
Proof.
  intros [H|H].
  - left. destruct q; try discriminate; reflexivity.
  - right. destruct (ge_one q H) as [->|(F & P)]; [exact inf_fge|].
    destruct one_val as (V1 & F1).
    assert (FS : is_fin (fsqrt q) = true) by (apply fsqrt_fin; auto; lra).
    apply fge_spec. split; [apply fin_not_nan; auto|]. split; [apply fin_not_nan; auto|].
    rewrite !fkey_fin by auto. rewrite V1, fsqrt_real. apply Rle_ge. rewrite <- V1 at 1. apply rnd_ge_f. rewrite V1.
    rewrite <- sqrt_1. apply sqrt_le_1; lra.
Qed.

(** ** Histories of items *)
Local Open Scope Z_scope.
Definition sol_ok (dim n : nat) (s : solver) : Prop :=
  match s with Stochastic => True | AdaGrad g => exists gs, g = of_rows (S dim) gs /\ all_len (S dim) gs /\ length gs = n end.

Lemma concat_inj n : (0 < n)%nat -> forall a b, all_len n a -> all_len n b -> concat a = concat b -> a = b.
Proof.
  intros Hn. induction a as [|x a IH]; intros [|y b] Ha Hb E; auto.
  - exfalso. inversion Hb; subst. destruct y; simpl in *; [lia|discriminate].
  - exfalso. inversion Ha; subst. destruct x; simpl in *; [lia|discriminate].
  - inversion Ha; inversion Hb; subst. cbn in E.
    assert (E1 : firstn (length x) (x ++ concat a) = firstn (length x) (y ++ concat b)) by (rewrite E; reflexivity).
    rewrite firstn_app, Nat.sub_diag, firstn_all in E1. cbn in E1. rewrite app_nil_r in E1.
    rewrite firstn_app in E1. replace (length x - length y)%nat with 0%nat in E1 by lia. rewrite firstn_all2 in E1 by lia. cbn in E1. rewrite app_nil_r in E1. subst y.
    f_equal. apply IH; auto. apply app_inv_head in E. exact E.
Qed.

Lemma of_rows_inj n a b : all_len (S n) a -> all_len (S n) b -> of_rows (S n) a = of_rows (S n) b -> a = b.
Proof. intros Ha Hb E. apply (concat_inj (S n)); auto; [lia|]. injection E as E _. exact E. Qed.

(** One solver call on two different rows. *)
Lemma solver_call lr dim rows r1 r2 f coef s : r1 <> r2 -> all_len (S dim) rows -> (r1 < length rows)%nat -> (r2 < length rows)%nat ->
  sol_ok dim (length rows) s ->
  exists rows' s', solver_train_one lr (Z.of_nat r1) (Z.of_nat r2) f coef (of_rows (S dim) rows, s) = Ret (of_rows (S dim) rows', s') /\
    all_len (S dim) rows' /\ length rows' = length rows /\ sol_ok dim (length rows) s' /\
    (forall q, q <> r1 -> q <> r2 -> nth q rows' [] = nth q rows []) /\
    (forall gs, s = AdaGrad (of_rows (S dim) gs) -> all_len (S dim) gs -> length gs = length rows ->
       exists gs', s' = AdaGrad (of_rows (S dim) gs') /\ all_len (S dim) gs' /\ length gs' = length rows /\
       (forall q, q <> r1 -> q <> r2 -> nth q gs' [] = nth q gs []) /\
       ((forall q j, (q < length gs)%nat -> (j < S dim)%nat -> acc_ok (at2 gs q j)) ->
         forall q j, (q < length gs)%nat -> (j < S dim)%nat -> acc_ok (at2 gs' q j) /\ acc_le (at2 gs q j) (at2 gs' q j))) /\
    (s = Stochastic -> s' = Stochastic).
Proof.
  intros Hne H H1 H2 Hs.
  assert (NU : forall {A} (l : list (list A)) a b x y q, q <> a -> q <> b -> nth q (upd2 l a b x y) [] = nth q l []).
  { intros A l a b x y q Ha Hb. unfold upd2. rewrite !nth_upd. destruct (Nat.eqb_spec b q); [lia|]. destruct (Nat.eqb_spec a q); [lia|]. reflexivity. }
  pose proof (all_len_nth _ _ _ H H1) as E1. pose proof (all_len_nth _ _ _ H H2) as E2.
  destruct s as [|g]; unfold solver_train_one; cbn [fst snd].
  - rewrite (sgd_lemma dim rows r1 r2 Hne H H1 H2). cbn [obind].
    set (d := glove_diff _ _ _ _ _).
    destruct (upd2_ok (S dim) rows r1 r2 (sgd_row d (nth r1 rows []) (nth r2 rows [])) (sgd_row d (nth r2 rows []) (nth r1 rows [])) H) as (B1 & B2);
      [apply sgd_row_length; auto|apply sgd_row_length; auto|].
    eexists; eexists. split; [reflexivity|]. split; [exact B1|]. split; [exact B2|]. split; [exact I|]. split; [intros; apply NU; auto|].
    split; [discriminate|reflexivity].
  - destruct Hs as (gs & -> & Hg & HLg).
    rewrite (ada_lemma dim rows r1 r2 Hne H H1 H2 lr f coef gs Hg HLg). cbn [obind].
    set (d := glove_diff _ _ _ _ _).
    pose proof (all_len_nth _ _ r1 Hg ltac:(lia)) as E3. pose proof (all_len_nth _ _ r2 Hg ltac:(lia)) as E4.
    destruct (upd2_ok (S dim) rows r1 r2 (ada_row d (nth r1 rows []) (nth r2 rows []) (nth r1 gs [])) (ada_row d (nth r2 rows []) (nth r1 rows []) (nth r2 gs [])) H) as (B1 & B2);
      [apply ada_row_length; auto|apply ada_row_length; auto|].
    destruct (upd2_ok (S dim) gs r1 r2 (ada_acc d (nth r1 gs []) (nth r2 rows [])) (ada_acc d (nth r2 gs []) (nth r1 rows [])) Hg) as (B3 & B4);
      [apply ada_acc_length; auto|apply ada_acc_length; auto|].
    eexists; eexists. split; [reflexivity|]. split; [exact B1|]. split; [exact B2|].
    split; [eexists; split; [reflexivity|]; split; [exact B3|lia]|]. split; [intros; apply NU; auto|].
    split; [|discriminate].
    intros gs0 E Hg0 _. injection E as E Ecol. assert (gs0 = gs) as -> by (apply (concat_inj (S dim)); auto; lia).
    eexists. split; [reflexivity|]. split; [exact B3|]. split; [lia|]. split; [intros; apply NU; auto|].
    intros Hok q j Hq Hj. rewrite (upd2_at (S dim)) by (auto; lia).
    destruct (Nat.eqb_spec q r1) as [->|]; [|destruct (Nat.eqb_spec q r2) as [->|]].
    + rewrite (ada_acc_nth dim) by auto. fold (at2 gs r1 j). destruct (j <? dim)%nat; apply acc_step; apply Hok; auto.
    + rewrite (ada_acc_nth dim) by auto. fold (at2 gs r2 j). destruct (j <? dim)%nat; apply acc_step; apply Hok; auto.
    + split; [apply Hok; auto|apply acc_le_refl].
Qed.

Definition item_in (V : nat) (it : item) : Prop := 0 <= it_l1 it < Z.of_nat V /\ 0 <= it_l2 it < Z.of_nat V.

Lemma item_call lr dim V rows it s : all_len (S dim) rows -> length rows = (2 * V)%nat -> sol_ok dim (length rows) s -> item_in V it ->
  exists rows' s', glove_train_item lr (Z.of_nat V) it (of_rows (S dim) rows, s) = Ret (of_rows (S dim) rows', s') /\
    all_len (S dim) rows' /\ length rows' = length rows /\ sol_ok dim (length rows) s' /\
    (forall q, (q <> Z.to_nat (it_l1 it) -> q <> Z.to_nat (it_l2 it) -> q <> Z.to_nat (it_l1 it) + V -> q <> Z.to_nat (it_l2 it) + V ->
       nth q rows' [] = nth q rows [])%nat) /\
    (forall gs, s = AdaGrad (of_rows (S dim) gs) -> all_len (S dim) gs -> length gs = length rows ->
       exists gs', s' = AdaGrad (of_rows (S dim) gs') /\ all_len (S dim) gs' /\ length gs' = length rows /\
       (forall q, (q <> Z.to_nat (it_l1 it) -> q <> Z.to_nat (it_l2 it) -> q <> Z.to_nat (it_l1 it) + V -> q <> Z.to_nat (it_l2 it) + V ->
          nth q gs' [] = nth q gs [])%nat) /\
       ((forall q j, (q < length gs)%nat -> (j < S dim)%nat -> acc_ok (at2 gs q j)) ->
         forall q j, (q < length gs)%nat -> (j < S dim)%nat -> acc_ok (at2 gs' q j) /\ acc_le (at2 gs q j) (at2 gs' q j))) /\
    (s = Stochastic -> s' = Stochastic).
Proof.
  intros H HL Hs (I1 & I2). unfold glove_train_item.
  set (a := Z.to_nat (it_l1 it)). set (b := Z.to_nat (it_l2 it)).
  replace (it_l2 it + Z.of_nat V) with (Z.of_nat (b + V)) by lia.
  replace (it_l1 it + Z.of_nat V) with (Z.of_nat (a + V)) by lia.
  replace (it_l1 it) with (Z.of_nat a) by lia. replace (it_l2 it) with (Z.of_nat b) by lia.
  destruct (solver_call lr dim rows a (b + V) (it_f it) (it_coef it) s ltac:(lia) H ltac:(lia) ltac:(lia) Hs)
    as (rows1 & s1 & E1 & A1 & L1 & S1 & F1 & G1 & T1).
  rewrite E1. cbn [obind].
  destruct (solver_call lr dim rows1 (a + V) b (it_f it) (it_coef it) s1 ltac:(lia) A1 ltac:(lia) ltac:(lia) ltac:(rewrite L1; exact S1))
    as (rows2 & s2 & E2 & A2 & L2 & S2 & F2 & G2 & T2).
  exists rows2, s2. split; [exact E2|]. split; [exact A2|]. split; [lia|]. split; [rewrite <- L1; exact S2|].
  split. { intros q N1 N2 N3 N4. rewrite F2, F1 by lia. reflexivity. }
  split; [|auto].
  intros gs Es Hg Hl. destruct (G1 gs Es Hg Hl) as (gs1 & Es1 & Hg1 & Hl1 & Fg1 & P1).
  destruct (G2 gs1 Es1 Hg1 ltac:(lia)) as (gs2 & Es2 & Hg2 & Hl2 & Fg2 & P2).
  exists gs2. split; [exact Es2|]. split; [exact Hg2|]. split; [lia|].
  split. { intros q N1 N2 N3 N4. rewrite Fg2, Fg1 by lia. reflexivity. }
  intros Hok. pose proof (P1 Hok) as P1'.
  assert (P2' := P2 (fun q j Hq Hj => proj1 (P1' q j ltac:(lia) Hj))).
  intros q j Hq Hj. destruct (P1' q j Hq Hj) as (_ & K1). destruct (P2' q j ltac:(lia) Hj) as (K2 & K3).
  split; [exact K2|]. eapply acc_le_trans; eauto.
Qed.

Lemma items_total lr dim V : forall items rows s, Forall (item_in V) items -> all_len (S dim) rows -> length rows = (2 * V)%nat ->
  sol_ok dim (length rows) s ->
  exists rows' s', ofold (glove_train_item lr (Z.of_nat V)) items (of_rows (S dim) rows, s) = Ret (of_rows (S dim) rows', s') /\
    all_len (S dim) rows' /\ length rows' = length rows /\ sol_ok dim (length rows) s'.
Proof.
  induction items as [|it items IH]; intros rows s HI H HL Hs.
  - exists rows, s. auto.
  - inversion HI; subst. cbn [ofold].
    destruct (item_call lr dim V rows it s H HL Hs) as (rows1 & s1 & E1 & A1 & L1 & S1 & _); auto.
    rewrite E1. cbn [obind]. destruct (IH rows1 s1) as (rows2 & s2 & E2 & A2 & L2 & S2); auto; [lia|rewrite L1; auto|].
    exists rows2, s2. split; [exact E2|]. split; [exact A2|]. split; [lia|]. rewrite <- L1. exact S2.
Qed.

Lemma items_accs lr dim V : forall items rows gs, Forall (item_in V) items -> all_len (S dim) rows -> length rows = (2 * V)%nat ->
  all_len (S dim) gs -> length gs = (2 * V)%nat ->
  (forall q j, (q < length gs)%nat -> (j < S dim)%nat -> acc_ok (at2 gs q j)) ->
  exists rows' gs', ofold (glove_train_item lr (Z.of_nat V)) items (of_rows (S dim) rows, AdaGrad (of_rows (S dim) gs)) =
      Ret (of_rows (S dim) rows', AdaGrad (of_rows (S dim) gs')) /\
    all_len (S dim) rows' /\ length rows' = (2 * V)%nat /\ all_len (S dim) gs' /\ length gs' = (2 * V)%nat /\
    (forall q j, (q < length gs)%nat -> (j < S dim)%nat -> acc_ok (at2 gs' q j) /\ acc_le (at2 gs q j) (at2 gs' q j)).
Proof.
  induction items as [|it items IH]; intros rows gs HI H HL Hg HLg Hok.
  - exists rows, gs. split; [reflexivity|]. split; [auto|]. split; [auto|]. split; [auto|]. split; [auto|].
    intros q j Hq Hj. split; [auto|apply acc_le_refl].
  - inversion HI; subst. cbn [ofold].
    destruct (item_call lr dim V rows it (AdaGrad (of_rows (S dim) gs)) H HL) as (rows1 & s1 & E1 & A1 & L1 & S1 & _ & G & _); auto.
    { exists gs. split; [reflexivity|]. split; [auto|lia]. }
    destruct (G gs eq_refl Hg ltac:(lia)) as (gs1 & -> & Hg1 & Hl1 & _ & P). specialize (P Hok).
    rewrite E1. cbn [obind].
    destruct (IH rows1 gs1) as (rows2 & gs2 & E2 & A2 & L2 & A3 & L3 & P2); auto; try lia.
    { intros q j Hq Hj. apply P; auto. lia. }
    exists rows2, gs2. split; [exact E2|]. split; [exact A2|]. split; [exact L2|]. split; [exact A3|]. split; [exact L3|].
    intros q j Hq Hj. destruct (P q j Hq Hj) as (_ & K1). destruct (P2 q j ltac:(lia) Hj) as (K2 & K3).
    split; [exact K2|]. eapply acc_le_trans; eauto.
Qed.

Lemma nth_repeat_lt {A} (x d : A) n j : (j < n)%nat -> nth j (repeat x n) d = x.
Proof. revert j; induction n as [|n IH]; intros [|j] Hj; cbn [repeat nth]; auto; try lia. apply IH. lia. Qed.

(** newAdaGrad: all ones. *)
Lemma mat_ones V dim : exists gs, new_adagrad (Z.of_nat V) (Z.of_nat dim) = Ret (of_rows (S dim) gs) /\
  all_len (S dim) gs /\ length gs = (2 * V)%nat /\
  forall q j, (q < 2 * V)%nat -> (j < S dim)%nat -> at2 gs q j = f_of_Z 1.
Proof.
  set (fn := fun (_ : unit) (_ : Z) (vec : list f64) => (tt, map (fun _ => f_of_Z 1) vec)).
  destruct (mat_new_lemma fn tt (Z.of_nat V * 2) (Z.of_nat dim + 1)) as (m & E & Hwf & Er & Ec & Hs); try lia.
  { intros. unfold fn. cbn. apply map_length. }
  set (rows := repeat (repeat (f_of_Z 1) (S dim)) (2 * V)).
  assert (HR : forall n i, snd (row_calls fn (S dim) n i tt) = repeat (repeat (f_of_Z 1) (S dim)) n).
  { induction n as [|n IH]; intros i; [reflexivity|]. cbn [row_calls fn repeat].
    specialize (IH (i + 1)). destruct (row_calls fn (S dim) n (i + 1) tt) as [u l]. cbn [snd] in IH. subst l. cbn [snd map]. f_equal. f_equal.
    clear. induction dim as [|k IH]; [reflexivity|]. cbn. f_equal. exact IH. }
  exists rows. unfold new_adagrad. fold fn. rewrite E. cbn [obind snd].
  assert (AL : all_len (S dim) rows).
  { unfold rows. apply Forall_forall. intros r Hr. apply repeat_spec in Hr. subst. apply repeat_length. }
  assert (LL : length rows = (2 * V)%nat) by apply repeat_length.
  split; [|split; [exact AL|split; [exact LL|]]].
  - f_equal. destruct Hwf as (W1 & W2 & W3). destruct m as [arr r c]. cbn [m_array m_row m_col] in *. subst r c.
    unfold of_rows. f_equal; [|lia|lia].
    apply nth_ext_error. intros k.
    destruct (Nat.lt_ge_cases k (2 * V * S dim)) as [Hk|Hk].
    + set (q := (k / S dim)%nat). set (j := (k mod S dim)%nat).
      assert (Ek : k = (q * S dim + j)%nat) by (unfold q, j; rewrite (Nat.div_mod k (S dim)) at 1 by lia; lia).
      assert (Hj : (j < S dim)%nat) by (apply Nat.mod_upper_bound; lia).
      assert (Hq : (q < 2 * V)%nat) by nia.
      specialize (Hs (Z.of_nat q) ltac:(lia)). 
      replace (Z.to_nat (Z.of_nat dim + 1)) with (S dim) in Hs by lia.
      replace (Z.to_nat (Z.of_nat V * 2)) with (2 * V)%nat in Hs by lia.
      rewrite HR, Nat2Z.id in Hs. fold rows in Hs.
      assert (HS2 : mat_slice (of_rows (S dim) rows) (Z.of_nat q) = Ret (nth q rows [])) by (apply of_rows_slice; auto; lia).
      assert (GG : forall m l, m_col m = Z.of_nat (S dim) -> mat_slice m (Z.of_nat q) = Ret l -> nth_error (m_array m) k = nth_error l j).
      { intros m l Hc Hm. unfold mat_slice, start_index in Hm. rewrite Hc in Hm. destruct (slice_ok _ _ _); [|discriminate].
        apply (f_equal (fun o => match o with Ret a => a | _ => [] end)) in Hm. cbv beta iota in Hm. subst l.
        rewrite nth_error_firstn_skipn. destruct (Nat.ltb_spec j (Z.to_nat (Z.of_nat (S dim)))); [|lia].
        rewrite <- Nat2Z.inj_mul, Nat2Z.id, Ek. reflexivity. }
      pose proof (GG (Mat arr (Z.of_nat V * 2) (Z.of_nat dim + 1)) _ ltac:(cbn [m_col]; lia) Hs) as K1.
      pose proof (GG (of_rows (S dim) rows) _ ltac:(reflexivity) HS2) as K2. cbn [m_array of_rows] in K1, K2. congruence.
    + assert (length (concat rows) = (2 * V * S dim)%nat) by (rewrite (concat_len (S dim)); auto; lia).
      rewrite !(proj2 (nth_error_None _ _)); auto; nia.
  - intros q j Hq Hj. unfold at2, rows. rewrite nth_repeat_lt by lia. apply nth_repeat_lt. lia.
Qed.
