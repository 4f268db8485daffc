(** * C43-C45: GloVe items and solvers *)
From Coq Require Import Reals Lra Lia Sorting.Permutation.
From Flocq Require Import Core BinarySingleNaN.
From Verif.Lib Require Import Go F64 F64Facts.
From Verif.Model Require Import Encode Cooc Reader Matrix Cells Glove.
From Verif.Spec Require Import Rows Training Cells Pairs.
From Verif.Proofs Require Cells Glove AdaGrad Items Cooc.
Local Open Scope Z_scope.

(** C43. [c] is the matrix after any sequence of Add calls with ids below 2^32, [em] its entries in
    any iteration order; [flog] and [fpow] are any functions. There is exactly one item per entry,
    and the items are the decoded entries with smaller id first, the log of the count and the
    weight. *)
Theorem C43_items : forall (flog : f64 -> f64) (fpow : f64 -> f64 -> f64) xmax alpha typ c0 adds em verbose lb,
  co_new typ = Ret c0 -> Forall (fun p => 0 <= fst p < 2 ^ 32 /\ 0 <= snd p < 2 ^ 32) adds ->
  verbose = false \/ lb <> 0 ->
  let c := fst (for_each (fun c p => co_add c (fst p) (snd p)) c0 adds) in
  Permutation em (co_ma c) ->
  exists items, make_items flog fpow xmax alpha verbose lb em = Ret items /\
    length items = length (co_ma c) /\
    NoDup (map (fun it => (it_l1 it, it_l2 it)) items) /\
    forall l1 l2 x w, In (Item l1 l2 x w) items <->
      0 <= l1 /\ l1 <= l2 /\ l2 < 2 ^ 32 /\
      exists f, mget Z.eq_dec (encode_bigram l1 l2) (co_ma c) = Some f /\ x = flog f /\
        w = if flt f (f_of_Z xmax) then fpow (fdiv f (f_of_Z xmax)) alpha else f_of_Z 1.
Proof.
  intros flog fpow xmax alpha typ c0 adds em verbose lb E HF Hv c HP.
  destruct (Items.items_lemma flog fpow xmax alpha typ c0 adds em verbose lb E HF Hv HP) as (items & E1 & E2 & E3 & E4).
  exists items. split; [exact E1|]. split; [exact E2|]. split; [exact E3|]. intros l1 l2 x w. rewrite E4.
  unfold Items.weight, Cooc.in32. fold c. intuition lia.
Qed.
Print Assumptions C43_items.

(** C43. With counts, the items are the co-occurring unordered pairs: a pair occurs in an item
    exactly when it was added, and then the count is the number of times it was added. *)
Theorem C43_items_are_the_counted_pairs : forall (flog : f64 -> f64) (fpow : f64 -> f64 -> f64) xmax alpha c0 adds em verbose lb,
  co_new "inc" = Ret c0 -> Forall (fun p => 0 <= fst p < 2 ^ 32 /\ 0 <= snd p < 2 ^ 32) adds ->
  Z.of_nat (length adds) <= 2 ^ 53 ->
  verbose = false \/ lb <> 0 ->
  Permutation em (co_ma (fst (for_each (fun c p => co_add c (fst p) (snd p)) c0 adds))) ->
  exists items, make_items flog fpow xmax alpha verbose lb em = Ret items /\
    NoDup (map (fun it => (it_l1 it, it_l2 it)) items) /\
    (forall l1 l2, (exists x w, In (Item l1 l2 x w) items) <->
       l1 <= l2 /\ (In (l1, l2) adds \/ In (l2, l1) adds)) /\
    (forall l1 l2 x w, In (Item l1 l2 x w) items ->
       exists f, is_fin f = true /\ f2r f = IZR (Z.of_nat (pair_count Z.eq_dec l1 l2 adds)) /\ x = flog f /\
         w = if flt f (f_of_Z xmax) then fpow (fdiv f (f_of_Z xmax)) alpha else f_of_Z 1).
Proof.
  intros flog fpow xmax alpha c0 adds em verbose lb E HF HN Hv HP.
  destruct (C43_items flog fpow xmax alpha "inc" c0 adds em verbose lb E HF Hv HP) as (items & E1 & _ & E3 & E4).
  destruct (Cooc.inc_counts_lemma adds HF) as (c0' & c & F1 & F2 & F3 & _).
  rewrite E in F1. injection F1 as <-. rewrite F2 in E4. cbn [fst] in E4.
  assert (PC : forall a b, (In (a, b) adds \/ In (b, a) adds) <-> pair_count Z.eq_dec a b adds <> 0%nat).
  { intros a b. unfold pair_count. rewrite length_zero_iff_nil. split.
    - intros HI HN0. destruct HI as [HI|HI].
      + assert (In (a, b) (filter (same_pair Z.eq_dec (a, b)) adds)) as HH; [|rewrite HN0 in HH; destruct HH].
        apply filter_In. split; [exact HI|]. cbn. destruct (Z.eq_dec a a), (Z.eq_dec b b); try congruence. reflexivity.
      + assert (In (b, a) (filter (same_pair Z.eq_dec (a, b)) adds)) as HH; [|rewrite HN0 in HH; destruct HH].
        apply filter_In. split; [exact HI|]. cbn. destruct (Z.eq_dec a a), (Z.eq_dec b b); try congruence.
        apply Bool.orb_true_r.
    - intros HN0. destruct (filter _ adds) as [|[u v] l] eqn:EF; [contradiction|].
      assert (HI : In (u, v) (filter (same_pair Z.eq_dec (a, b)) adds)) by (rewrite EF; left; reflexivity).
      apply filter_In in HI. destruct HI as (HI & HS). cbn in HS. apply Bool.orb_true_iff in HS.
      destruct (Z.eq_dec a u), (Z.eq_dec b v), (Z.eq_dec a v), (Z.eq_dec b u); subst; destruct HS; try discriminate; auto. }
  assert (RG : forall a b, In (a, b) adds \/ In (b, a) adds -> 0 <= a < 2 ^ 32 /\ 0 <= b < 2 ^ 32).
  { intros a b [HI|HI]; rewrite Forall_forall in HF; specialize (HF _ HI); cbn [fst snd] in HF; tauto. }
  exists items. split; [exact E1|]. split; [exact E3|]. split.
  - intros l1 l2. split.
    + intros (x & w & HI). apply E4 in HI. destruct HI as (A & B & C & f & G & _). split; [exact B|].
      apply PC. intros Z0. specialize (F3 l1 l2 ltac:(unfold Cooc.in32; lia) ltac:(unfold Cooc.in32; lia)). rewrite Z0 in F3. congruence.
    + intros (B & HI). destruct (RG l1 l2 HI) as (R1 & R2). apply PC in HI. specialize (F3 l1 l2 R1 R2).
      destruct (pair_count Z.eq_dec l1 l2 adds) as [|n]; [congruence|]. destruct F3 as (v & G & _).
      eexists _, _. apply E4. split; [lia|]. split; [lia|]. split; [lia|]. exists v. split; [exact G|]. split; reflexivity.
  - intros l1 l2 x w HI. apply E4 in HI. destruct HI as (A & B & C & f & G & Ex & Ew).
    specialize (F3 l1 l2 ltac:(unfold Cooc.in32; lia) ltac:(unfold Cooc.in32; lia)).
    assert (PL : (pair_count Z.eq_dec l1 l2 adds <= length adds)%nat).
    { unfold pair_count. clear. induction adds as [|p l IH]; [apply Nat.le_refl|]. cbn [filter length]. destruct (same_pair _ _ _); cbn [length]; lia. }
    destruct (pair_count Z.eq_dec l1 l2 adds) as [|n]; [congruence|]. destruct F3 as (v & G' & Fv & Ev).
    rewrite G in G'. injection G' as <-. exists f. split; [exact Fv|]. split; [|split; [exact Ex|exact Ew]].
    rewrite Ev. apply f_equal. apply Z.min_l. apply Nat2Z.inj_le in PL. apply Z.le_trans with (1 := PL). exact HN.
Qed.
Print Assumptions C43_items_are_the_counted_pairs.

(** C43. The weight of a finite count is a number in [0,1] whenever pow maps [0,1] to [0,1] for the
    given exponent (as math.Pow does for exponents >= 0). *)
Theorem C43_weight_in_unit_interval : forall (flog : f64 -> f64) (fpow : f64 -> f64 -> f64) xmax alpha enc f,
  1 <= xmax <= 2 ^ 53 -> is_fin f = true -> (0 <= f2r f)%R ->
  (forall x, is_fin x = true -> (0 <= f2r x <= 1)%R ->
     is_fin (fpow x alpha) = true /\ (0 <= f2r (fpow x alpha) <= 1)%R) ->
  let w := it_coef (make_item flog fpow xmax alpha (enc, f)) in
  is_fin w = true /\ (0 <= f2r w <= 1)%R.
Proof.
  intros flog fpow xmax alpha enc f Hx Ff Hf HP. cbv zeta. unfold make_item. destruct (decode_bigram enc). cbn [it_coef].
  destruct (f_of_Z_exact xmax ltac:(lia)) as (Ex & Fx). destruct (f_of_Z_exact 1 ltac:(lia)) as (E1 & F1).
  assert (Px : (1 <= IZR xmax)%R) by (apply IZR_le; lia).
  destruct (flt f (f_of_Z xmax)) eqn:L; [|rewrite E1; split; [exact F1|lra]].
  apply flt_spec in L. destruct L as (_ & _ & L). rewrite !fkey_fin, Ex in L by auto.
  assert (B : (0 <= f2r f / IZR xmax <= 1)%R).
  { split; [apply Rmult_le_pos; [lra|left; apply Rinv_0_lt_compat; lra]|]. apply Rmult_le_reg_r with (IZR xmax); [lra|]. field_simplify; lra. }
  assert (R : (0 <= rnd (f2r f / IZR xmax) <= 1)%R).
  { split; [rewrite <- rnd_0; apply rnd_le; lra|]. rewrite <- E1. apply rnd_le_f. rewrite E1. lra. }
  destruct (fdiv_fin f (f_of_Z xmax) Ff) as (ED & FD).
  { rewrite Ex. lra. }
  { rewrite Ex. apply rnd_small with (f_of_Z 1). rewrite E1, Rabs_pos_eq; lra. }
  apply HP; [exact FD|]. rewrite ED, Ex. exact R.
Qed.
Print Assumptions C43_weight_in_unit_interval.

(** For instance xmax = 2 with the (wrong but allowed) "pow x y = x" and "log x = x": the pair seen
    three times has weight 1, the pair seen once 1/2. *)
Example C43_case :
  let c := fst (for_each (fun c p => co_add c (fst p) (snd p)) {| co_typ := "inc"; co_ma := [] |}
                  [(2, 1); (2, 1); (3, 3); (1, 2)]) in
  match make_items (fun x => x) (fun x _ => x) 2 (f_of_Z 1) false 0 (co_ma c) with
  | Ret items => map (fun it => (it_l1 it, it_l2 it, fshow (it_f it), fshow (it_coef it))) items
  | _ => []
  end = [(1, 2, Some (3 * 2 ^ 51, -51), Some (2 ^ 52, -52)); (3, 3, Some (2 ^ 52, -52), Some (2 ^ 52, -53))].
Proof. vm_compute. reflexivity. Qed.

(** C44. A solver step on two different rows, stochastic: both new rows are computed from the old
    values of both rows; every other row is unchanged. ([glove_diff], [sgd_row] in Spec/Cells.v.) *)
Theorem C44_sgd_step : forall dim rows r1 r2 lr f coef,
  r1 <> r2 -> all_len (S dim) rows -> (r1 < length rows)%nat -> (r2 < length rows)%nat ->
  let x := nth r1 rows [] in let y := nth r2 rows [] in
  let d := glove_diff lr f coef x y in
  sgd_train_one lr (Z.of_nat r1) (Z.of_nat r2) f coef (of_rows (S dim) rows) =
  Ret (of_rows (S dim) (upd2 rows r1 r2 (sgd_row d x y) (sgd_row d y x))).
Proof. intros. apply Glove.sgd_lemma; auto. Qed.
Print Assumptions C44_sgd_step.

(** C44. The same for AdaGrad, with the accumulator rows [gs]. *)
Theorem C44_adagrad_step : forall dim rows gs r1 r2 lr f coef,
  r1 <> r2 -> all_len (S dim) rows -> all_len (S dim) gs -> length gs = length rows ->
  (r1 < length rows)%nat -> (r2 < length rows)%nat ->
  let x := nth r1 rows [] in let y := nth r2 rows [] in
  let g := nth r1 gs [] in let h := nth r2 gs [] in
  let d := glove_diff lr f coef x y in
  ada_train_one lr (Z.of_nat r1) (Z.of_nat r2) f coef (of_rows (S dim) rows, of_rows (S dim) gs) =
  Ret (of_rows (S dim) (upd2 rows r1 r2 (ada_row d x y g) (ada_row d y x h)),
       of_rows (S dim) (upd2 gs r1 r2 (ada_acc d g y) (ada_acc d h x))).
Proof. intros. apply Glove.ada_lemma; auto. Qed.
Print Assumptions C44_adagrad_step.

(** C44. Training one item with ids [a], [b] below [V]: never panics and changes no row other than
    a, b, a+V, b+V, of the parameters or of the accumulators. *)
Theorem C44_item_rows : forall dim V rows s lr a b f coef,
  all_len (S dim) rows -> length rows = (2 * V)%nat -> (a < V)%nat -> (b < V)%nat ->
  (s = Stochastic \/ exists gs, s = AdaGrad (of_rows (S dim) gs) /\ all_len (S dim) gs /\ length gs = (2 * V)%nat) ->
  exists rows' s',
    glove_train_item lr (Z.of_nat V) (Item (Z.of_nat a) (Z.of_nat b) f coef) (of_rows (S dim) rows, s) =
      Ret (of_rows (S dim) rows', s') /\
    all_len (S dim) rows' /\ length rows' = (2 * V)%nat /\
    (forall q, ~ In q [a; b; (a + V)%nat; (b + V)%nat] -> nth q rows' [] = nth q rows []) /\
    match s with
    | Stochastic => s' = Stochastic
    | AdaGrad g => forall gs, g = of_rows (S dim) gs -> all_len (S dim) gs -> length gs = (2 * V)%nat ->
        exists gs', s' = AdaGrad (of_rows (S dim) gs') /\ all_len (S dim) gs' /\ length gs' = (2 * V)%nat /\
        forall q, ~ In q [a; b; (a + V)%nat; (b + V)%nat] -> nth q gs' [] = nth q gs []
    end.
Proof.
  intros dim V rows s lr a b f coef H HL Ha Hb Hs.
  destruct (AdaGrad.item_call lr dim V rows (Item (Z.of_nat a) (Z.of_nat b) f coef) s H HL)
    as (rows' & s' & E & A & L & S & F & G & K).
  { destruct Hs as [->|(gs & -> & HA & HG)]; [exact I|]. exists gs. rewrite HL. auto. }
  { split; cbn [it_l1 it_l2]; lia. }
  cbn [it_l1 it_l2] in F, G. rewrite !Nat2Z.id in F, G.
  exists rows', s'. split; [exact E|]. split; [exact A|]. split; [congruence|]. split.
  { intros q Hq. apply F; intros ->; apply Hq; cbn; auto. }
  destruct s as [|g]; [apply K; reflexivity|]. intros gs -> HA HG.
  destruct (G gs eq_refl HA ltac:(congruence)) as (gs' & E' & A' & L' & F' & _).
  exists gs'. split; [exact E'|]. split; [exact A'|]. split; [congruence|].
  intros q Hq. apply F'; intros ->; apply Hq; cbn; auto.
Qed.
Print Assumptions C44_item_rows.

(** C44. So no sequence of items with ids below the vocabulary size ever panics. *)
Theorem C44_items_never_panic : forall dim V items rows s lr,
  Forall (fun it => 0 <= it_l1 it < Z.of_nat V /\ 0 <= it_l2 it < Z.of_nat V) items ->
  all_len (S dim) rows -> length rows = (2 * V)%nat ->
  (s = Stochastic \/ exists gs, s = AdaGrad (of_rows (S dim) gs) /\ all_len (S dim) gs /\ length gs = (2 * V)%nat) ->
  exists rows' s', ofold (glove_train_item lr (Z.of_nat V)) items (of_rows (S dim) rows, s) = Ret (of_rows (S dim) rows', s') /\
    all_len (S dim) rows' /\ length rows' = (2 * V)%nat.
Proof.
  intros dim V items rows s lr HI H HL Hs.
  destruct (AdaGrad.items_total lr dim V items rows s HI H HL) as (rows' & s' & E & A & L & _).
  { destruct Hs as [->|(gs & -> & HA & HG)]; [exact I|]. exists gs. rewrite HL. auto. }
  exists rows', s'. split; [exact E|]. split; [exact A|congruence].
Qed.
Print Assumptions C44_items_never_panic.

(** Vocabulary 1, dimension 1: rows (vector, bias) = (2, 1) and (3, 1); error 2*3+1+1-0 = 8, times
    the learning rate 1/2 is 4. First call: (2-4*3, 1-4) and (3-4*2, 1-4). *)
Example C44_case :
  let n z := f_of_Z z in
  match sgd_train_one (f_dec 5 1) 0 1 (n 0) (n 1) (of_rows 2 [[n 2; n 1]; [n 3; n 1]]) with
  | Ret m => map fshow (m_array m)
  | _ => []
  end = map fshow [n (-10); n (-3); n (-5); n (-3)].
Proof. vm_compute. reflexivity. Qed.

(** C45. Starting from new accumulators, after any sequence of items every accumulator is NaN or
    at least 1, and so is the square root that divides the step. *)
Theorem C45_accumulators_at_least_one : forall dim V g0 items rows lr,
  new_adagrad (Z.of_nat V) (Z.of_nat dim) = Ret g0 ->
  Forall (fun it => 0 <= it_l1 it < Z.of_nat V /\ 0 <= it_l2 it < Z.of_nat V) items ->
  all_len (S dim) rows -> length rows = (2 * V)%nat ->
  exists m g, ofold (glove_train_item lr (Z.of_nat V)) items (of_rows (S dim) rows, AdaGrad g0) = Ret (m, AdaGrad g) /\
    forall r i, 0 <= r < 2 * Z.of_nat V -> 0 <= i <= Z.of_nat dim ->
      exists q, cell g r i = Ret q /\ (isnan q = true \/ fge q (f_of_Z 1) = true) /\
        (isnan (fsqrt q) = true \/ fge (fsqrt q) (f_of_Z 1) = true).
Proof.
  intros dim V g0 items rows lr E HI H HL.
  destruct (AdaGrad.mat_ones V dim) as (gs & E' & A & L & O). rewrite E in E'. injection E' as ->.
  destruct (AdaGrad.items_accs lr dim V items rows gs HI H HL A L) as (rows' & gs' & ER & A' & L' & Ag & Lg & HQ).
  { intros q j Hq Hj. rewrite O by lia. right. apply fge_spec. destruct AdaGrad.one_val as (V1 & F1).
    split; [apply fin_not_nan, F1|]. split; [apply fin_not_nan, F1|]. lra. }
  exists (of_rows (S dim) rows'), (of_rows (S dim) gs'). split; [exact ER|].
  intros r i Hr Hi. exists (Cells.at2 gs' (Z.to_nat r) (Z.to_nat i)).
  destruct (HQ (Z.to_nat r) (Z.to_nat i) ltac:(lia) ltac:(lia)) as (OK & _).
  split; [|split; [exact OK|apply AdaGrad.acc_sqrt, OK]].
  pose proof (Cells.cell_at (S dim) gs' (Z.to_nat r) (Z.to_nat i) Ag ltac:(lia) ltac:(lia)) as HC.
  rewrite !Z2Nat.id in HC by lia. exact HC.
Qed.
Print Assumptions C45_accumulators_at_least_one.

(** C45. An accumulator never decreases (as long as it is a number); new accumulators are 1. *)
Theorem C45_accumulators_never_decrease : forall dim V items rows gs lr,
  Forall (fun it => 0 <= it_l1 it < Z.of_nat V /\ 0 <= it_l2 it < Z.of_nat V) items ->
  all_len (S dim) rows -> length rows = (2 * V)%nat -> all_len (S dim) gs -> length gs = (2 * V)%nat ->
  (forall r i q, 0 <= r < 2 * Z.of_nat V -> 0 <= i <= Z.of_nat dim -> cell (of_rows (S dim) gs) r i = Ret q ->
     isnan q = true \/ fge q (f_of_Z 1) = true) ->
  exists m g, ofold (glove_train_item lr (Z.of_nat V)) items (of_rows (S dim) rows, AdaGrad (of_rows (S dim) gs)) = Ret (m, AdaGrad g) /\
    forall r i, 0 <= r < 2 * Z.of_nat V -> 0 <= i <= Z.of_nat dim ->
      exists q q', cell (of_rows (S dim) gs) r i = Ret q /\ cell g r i = Ret q' /\ (isnan q' = true \/ fle q q' = true).
Proof.
  intros dim V items rows gs lr HI H HL A L HO.
  assert (CA : forall gs r i, all_len (S dim) gs -> length gs = (2 * V)%nat -> 0 <= r < 2 * Z.of_nat V -> 0 <= i <= Z.of_nat dim ->
    cell (of_rows (S dim) gs) r i = Ret (Cells.at2 gs (Z.to_nat r) (Z.to_nat i))).
  { clear. intros gs r i A L Hr Hi. pose proof (Cells.cell_at (S dim) gs (Z.to_nat r) (Z.to_nat i) A ltac:(lia) ltac:(lia)) as HC.
    rewrite !Z2Nat.id in HC by lia. exact HC. }
  destruct (AdaGrad.items_accs lr dim V items rows gs HI H HL A L) as (rows' & gs' & ER & A' & L' & Ag & Lg & HQ).
  { intros q j Hq Hj. apply (HO (Z.of_nat q) (Z.of_nat j)); try lia. rewrite CA by (auto; lia). rewrite !Nat2Z.id. reflexivity. }
  exists (of_rows (S dim) rows'), (of_rows (S dim) gs'). split; [exact ER|].
  intros r i Hr Hi. do 2 eexists. split; [apply CA; auto|]. split; [apply CA; auto|].
  apply (HQ (Z.to_nat r) (Z.to_nat i)); lia.
Qed.
Print Assumptions C45_accumulators_never_decrease.

Theorem C45_new_accumulators : forall dim V, exists g, new_adagrad (Z.of_nat V) (Z.of_nat dim) = Ret g /\
  forall r i, 0 <= r < 2 * Z.of_nat V -> 0 <= i <= Z.of_nat dim -> cell g r i = Ret (f_of_Z 1).
Proof.
  intros dim V. destruct (AdaGrad.mat_ones V dim) as (gs & E & A & L & O). exists (of_rows (S dim) gs). split; [exact E|].
  intros r i Hr Hi. pose proof (Cells.cell_at (S dim) gs (Z.to_nat r) (Z.to_nat i) A ltac:(lia) ltac:(lia)) as HC.
  rewrite !Z2Nat.id in HC by lia. rewrite HC, O by lia. reflexivity.
Qed.
Print Assumptions C45_new_accumulators.

(** One item on vocabulary 1, dimension 1: the accumulators have grown. *)
Example C45_case :
  let n z := f_of_Z z in
  match new_adagrad 1 1 with
  | Ret g0 =>
      match glove_train_item (f_dec 5 1) 1 (Item 0 0 (n 0) (n 1)) (of_rows 2 [[n 2; n 1]; [n 3; n 1]], AdaGrad g0) with
      | Ret (_, AdaGrad g) => forallb (fun q => fge q (n 17)) (m_array g)
      | _ => false
      end
  | _ => false
  end = true.
Proof. vm_compute. reflexivity. Qed.
