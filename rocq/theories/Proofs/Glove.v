From Coq Require Import Sorting.Permutation.
From Verif.Lib Require Import Go F64 ListFacts Tac.
From Verif.Model Require Import Matrix Cells Encode Cooc Glove.
From Verif.Spec Require Import Rows Training Cells.
From Verif.Proofs Require Import Matrix Word2vec Cells.
Local Open Scope Z_scope.

Section Lens.
Variable dim : nat.
Lemma ada_acc_length d g r : length g = S dim -> length r = S dim -> length (ada_acc d g r) = S dim.
Proof.
  intros A B. unfold ada_acc. rewrite app_length, zipw_length; rewrite !(vec_length _ dim); simpl; auto; lia.
Qed.
Lemma vec_snoc (l : list f64) x : vec (l ++ [x]) = l.
Proof. apply removelast_last. Qed.
Lemma ada_row_vlen d ra rb g : length ra = S dim -> length rb = S dim -> length g = S dim ->
  length (zipw fsub (vec ra) (zipw (fun b q => fdiv (fmul d b) (fsqrt q)) (vec rb) (vec (ada_acc d g rb)))) = dim.
Proof.
  intros A B C. unfold ada_acc. rewrite vec_snoc. rewrite !zipw_length; rewrite ?zipw_length; rewrite ?zipw_length; rewrite ?(vec_length _ dim); auto.
Qed.
Lemma ada_row_length d ra rb g : length ra = S dim -> length rb = S dim -> length g = S dim -> length (ada_row d ra rb g) = S dim.
Proof. intros. unfold ada_row. rewrite app_length, ada_row_vlen by auto. simpl. lia. Qed.

Lemma ada_acc_nth d g r j : length g = S dim -> length r = S dim -> (j < S dim)%nat ->
  nth j (ada_acc d g r) fzero = if (j <? dim)%nat then fadd (nth j g fzero) (fmul (fmul d (nth j r fzero)) (fmul d (nth j r fzero)))
                                else fadd (nth j g fzero) (fmul d d).
Proof.
  intros A B Hj. unfold ada_acc. rewrite (nth_snoc _ _ _ dim) by (rewrite zipw_length; rewrite !(vec_length _ dim); auto).
  destruct (Nat.ltb_spec j dim).
  - rewrite nth_zipw by (rewrite !(vec_length _ dim); auto). rewrite !(vec_nth _ dim) by auto. reflexivity.
  - destruct (Nat.eqb_spec j dim); [|lia]. subst. rewrite (bias_nth g dim A). reflexivity.
Qed.
Lemma ada_row_nth d ra rb g j : length ra = S dim -> length rb = S dim -> length g = S dim -> (j < S dim)%nat ->
  nth j (ada_row d ra rb g) fzero =
    if (j <? dim)%nat then fsub (nth j ra fzero) (fdiv (fmul d (nth j rb fzero)) (fsqrt (nth j (ada_acc d g rb) fzero)))
    else fsub (nth j ra fzero) (fdiv d (fsqrt (nth j g fzero))).
Proof.
  intros A B C Hj. unfold ada_row. rewrite (nth_snoc _ _ _ dim) by (apply ada_row_vlen; auto).
  pose proof (ada_acc_length d g rb C B) as AL.
  destruct (Nat.ltb_spec j dim).
  - rewrite nth_zipw; [|rewrite zipw_length; rewrite !(vec_length _ dim); auto|rewrite (vec_length _ dim); auto].
    rewrite nth_zipw by (rewrite !(vec_length _ dim); auto). rewrite !(vec_nth _ dim) by auto. reflexivity.
  - destruct (Nat.eqb_spec j dim); [|lia]. subst. rewrite (bias_nth ra dim A), (bias_nth g dim C). reflexivity.
Qed.

End Lens.

Section Step.
Variables (dim : nat) (rows : list (list f64)) (r1 r2 : nat).
Hypotheses (Hne : r1 <> r2) (H : all_len (S dim) rows) (H1 : (r1 < length rows)%nat) (H2 : (r2 < length rows)%nat).
Let v1 := nth r1 rows [].
Let v2 := nth r2 rows [].
Lemma len1 : length v1 = S dim. Proof. apply all_len_nth; auto. Qed.
Lemma len2 : length v2 = S dim. Proof. apply all_len_nth; auto. Qed.

Lemma start_diff {A} f coef lr (K : f64 -> outcome A) :
  obind (cell_dot (of_rows (S dim) rows) (Z.of_nat r1) (Z.of_nat r2) dim 0 fzero) (fun s =>
  obind (cell (of_rows (S dim) rows) (Z.of_nat r1) (Z.of_nat dim)) (fun b1 =>
  obind (cell (of_rows (S dim) rows) (Z.of_nat r2) (Z.of_nat dim)) (fun b2 =>
  K (fmul (fadd s (fsub (fadd b1 b2) f)) (fmul coef lr))))) = K (glove_diff lr f coef v1 v2).
Proof.
  change 0 with (Z.of_nat 0). rewrite (cell_dot_at (S dim)) by (auto; lia). cbn [obind].
  rewrite !cell_at by (auto; lia). cbn [obind]. f_equal. unfold glove_diff.
  rewrite (bias_nth v1 dim len1), (bias_nth v2 dim len2). fold (at2 rows r1 dim). fold (at2 rows r2 dim).
  f_equal. f_equal.
  rewrite (dot_seq _ _ dim) by (apply vec_length; apply len1 || apply len2).
  assert (EE : forall l acc, incl l (seq 0 dim) ->
    fold_left (fun acc j => fadd acc (fmul (at2 rows r1 j) (at2 rows r2 j))) l acc =
    fold_left (fun acc j => fadd acc (fmul (nth j (vec v1) fzero) (nth j (vec v2) fzero))) l acc).
  { induction l as [|j l IH]; intros acc Hl; [reflexivity|]. cbn [fold_left].
    assert (Hj : (j < dim)%nat). { specialize (Hl j (or_introl eq_refl)). apply in_seq in Hl. lia. }
    rewrite (vec_nth v1 dim j len1 Hj), (vec_nth v2 dim j len2 Hj). apply IH. intros a Ha. apply Hl. right; auto. }
  apply EE. apply incl_refl.
Qed.

Lemma sgd_lemma lr f coef :
  let d := glove_diff lr f coef v1 v2 in
  sgd_train_one lr (Z.of_nat r1) (Z.of_nat r2) f coef (of_rows (S dim) rows) =
  Ret (of_rows (S dim) (upd2 rows r1 r2 (sgd_row d v1 v2) (sgd_row d v2 v1))).
Proof.
  intros d. unfold sgd_train_one. rewrite !of_rows_slice by auto. cbn [obind].
  fold v1. rewrite len1. replace (Z.of_nat (S dim) - 1) with (Z.of_nat dim) by lia. rewrite Nat2Z.id.
  cbv zeta.
  rewrite (start_diff f coef lr (fun diff =>
    obind (pair_loop diff (Z.of_nat r1) (Z.of_nat r2) dim 0 (of_rows (S dim) rows)) (fun m1 =>
    obind (sub_cell m1 (Z.of_nat r1) (Z.of_nat dim) diff) (fun m2 => sub_cell m2 (Z.of_nat r2) (Z.of_nat dim) diff)))).
  fold d. change 0 with (Z.of_nat 0).
  destruct (pair_loop_at (S dim) d r1 r2 Hne dim 0 rows H H1 H2 ltac:(lia)) as (rows1 & -> & A1 & L1 & P1).
  cbn [obind]. rewrite sub_cell_at by (auto; lia). cbn [obind].
  set (x1 := fsub (at2 rows1 r1 dim) d). destruct (put_ok (S dim) rows1 r1 dim x1 A1) as (A2 & L2).
  assert (P2 : forall q j, at2 (put rows1 r1 dim x1) q j = if (q =? r1)%nat && (j =? dim)%nat then x1 else at2 rows1 q j).
  { intros. apply (put_at (S dim)); auto; lia. }
  set (rows2 := put rows1 r1 dim x1) in *.
  rewrite sub_cell_at by (auto; lia).
  set (x2 := fsub (at2 rows2 r2 dim) d). destruct (put_ok (S dim) rows2 r2 dim x2 A2) as (A3 & L3).
  assert (P3 : forall q j, at2 (put rows2 r2 dim x2) q j = if (q =? r2)%nat && (j =? dim)%nat then x2 else at2 rows2 q j).
  { intros. apply (put_at (S dim)); auto; lia. }
  set (rows3 := put rows2 r2 dim x2) in *.
  f_equal. f_equal.
  pose proof len1 as E1. pose proof len2 as E2.
  destruct (upd2_ok (S dim) rows r1 r2 (sgd_row d v1 v2) (sgd_row d v2 v1) H) as (A4 & L4);
    [apply (sgd_row_length d v1 v2 dim); auto|apply (sgd_row_length d v2 v1 dim); auto|].
  apply (rows_ext (S dim)); auto; [lia|]. intros q j Hq Hj.
  rewrite (upd2_at (S dim)) by auto. rewrite P3, P2, P1. unfold x2. rewrite P2, P1. unfold x1. rewrite P1.
  destruct (Nat.eqb_spec r2 r1); [lia|]. destruct (Nat.eqb_spec r1 r2); [lia|]. rewrite !Nat.eqb_refl. cbn [andb].
  assert (EI : forall j, inr 0 dim j = (j <? dim)%nat) by (intros; reflexivity). rewrite !EI.
  replace (dim <? dim)%nat with false by (symmetry; apply Nat.ltb_ge; lia).
  assert (S1 : length (step_row d (vec v1) (vec v2)) = dim) by (rewrite step_row_length; rewrite !(vec_length _ dim); auto).
  assert (S2 : length (step_row d (vec v2) (vec v1)) = dim) by (rewrite step_row_length; rewrite !(vec_length _ dim); auto).
  unfold sgd_row. rewrite (nth_snoc _ _ _ dim S1), (nth_snoc _ _ _ dim S2).
  destruct (Nat.ltb_spec j dim).
  - destruct (Nat.eqb_spec j dim); [lia|]. rewrite !andb_false_r.
    destruct (Nat.eqb_spec q r1) as [->|]; [|destruct (Nat.eqb_spec q r2) as [->|]; [|reflexivity]].
    + unfold step_row. rewrite nth_zipw by (rewrite !(vec_length _ dim); auto). rewrite !(vec_nth _ dim) by auto. reflexivity.
    + unfold step_row. rewrite nth_zipw by (rewrite !(vec_length _ dim); auto). rewrite !(vec_nth _ dim) by auto. reflexivity.
  - assert (j = dim) as -> by lia. rewrite Nat.eqb_refl, !andb_true_r.
    rewrite (bias_nth v1 dim E1), (bias_nth v2 dim E2).
    destruct (Nat.eqb_spec q r2) as [->|].
    + destruct (Nat.eqb_spec r2 r1); [lia|]. reflexivity.
    + destruct (Nat.eqb_spec q r1) as [->|]; reflexivity.
Qed.

(** AdaGrad: the loop. *)
Lemma ada_loop_at d : forall n i (rs gs : list (list f64)), all_len (S dim) rs -> all_len (S dim) gs ->
  (r1 < length rs)%nat -> (r2 < length rs)%nat -> (r1 < length gs)%nat -> (r2 < length gs)%nat -> (i + n <= dim)%nat ->
  exists rs' gs', ada_loop d (Z.of_nat r1) (Z.of_nat r2) n (Z.of_nat i) (of_rows (S dim) rs) (of_rows (S dim) gs)
      = Ret (of_rows (S dim) rs', of_rows (S dim) gs') /\
    all_len (S dim) rs' /\ length rs' = length rs /\ all_len (S dim) gs' /\ length gs' = length gs /\
    (forall q j, at2 gs' q j =
      if inr i n j then
        if (q =? r1)%nat then fadd (at2 gs r1 j) (fmul (fmul d (at2 rs r2 j)) (fmul d (at2 rs r2 j)))
        else if (q =? r2)%nat then fadd (at2 gs r2 j) (fmul (fmul d (at2 rs r1 j)) (fmul d (at2 rs r1 j)))
        else at2 gs q j
      else at2 gs q j) /\
    (forall q j, at2 rs' q j =
      if inr i n j then
        if (q =? r1)%nat then fsub (at2 rs r1 j) (fdiv (fmul d (at2 rs r2 j)) (fsqrt (at2 gs' r1 j)))
        else if (q =? r2)%nat then fsub (at2 rs r2 j) (fdiv (fmul d (at2 rs r1 j)) (fsqrt (at2 gs' r2 j)))
        else at2 rs q j
      else at2 rs q j).
Proof.
  induction n as [|n IH]; intros i rs gs Hr Hg B1 B2 C1 C2 Hi.
  - exists rs, gs. cbn [ada_loop]. split; [reflexivity|]. split; [auto|]. split; [auto|]. split; [auto|]. split; [auto|].
    assert (E : forall j, inr i 0 j = false).
    { intros j. unfold inr. apply andb_false_iff. destruct (Nat.ltb_spec j (i + 0)); [left; apply Nat.leb_gt; lia|auto]. }
    split; intros q j; rewrite E; reflexivity.
  - cbn [ada_loop]. rewrite !cell_at by (auto; lia). cbn [obind]. cbv zeta.
    set (t1 := fmul d (at2 rs r2 i)). set (t2 := fmul d (at2 rs r1 i)).
    rewrite (add_cell_at (S dim)) by (auto; lia). cbn [obind].
    set (y1 := fadd (at2 gs r1 i) (fmul t1 t1)).
    destruct (put_ok (S dim) gs r1 i y1 Hg) as (A1 & L1).
    assert (G1 : forall q j, at2 (put gs r1 i y1) q j = if (q =? r1)%nat && (j =? i)%nat then y1 else at2 gs q j).
    { intros. apply (put_at (S dim)); auto; lia. }
    set (gs1 := put gs r1 i y1) in *.
    rewrite (add_cell_at (S dim)) by (auto; lia). cbn [obind].
    set (y2 := fadd (at2 gs1 r2 i) (fmul t2 t2)).
    destruct (put_ok (S dim) gs1 r2 i y2 A1) as (A2 & L2).
    assert (G2 : forall q j, at2 (put gs1 r2 i y2) q j = if (q =? r2)%nat && (j =? i)%nat then y2 else at2 gs1 q j).
    { intros. apply (put_at (S dim)); auto; lia. }
    set (gs2 := put gs1 r2 i y2) in *.
    rewrite !(cell_at (S dim) gs2) by (auto; lia). cbn [obind].
    rewrite (sub_cell_at (S dim)) by (auto; lia). cbn [obind].
    set (x1 := fsub (at2 rs r1 i) (fdiv t1 (fsqrt (at2 gs2 r1 i)))).
    destruct (put_ok (S dim) rs r1 i x1 Hr) as (A3 & L3).
    assert (R1 : forall q j, at2 (put rs r1 i x1) q j = if (q =? r1)%nat && (j =? i)%nat then x1 else at2 rs q j).
    { intros. apply (put_at (S dim)); auto; lia. }
    set (rs1 := put rs r1 i x1) in *.
    rewrite (sub_cell_at (S dim)) by (auto; lia). cbn [obind].
    set (x2 := fsub (at2 rs1 r2 i) (fdiv t2 (fsqrt (at2 gs2 r2 i)))).
    destruct (put_ok (S dim) rs1 r2 i x2 A3) as (A4 & L4).
    assert (R2 : forall q j, at2 (put rs1 r2 i x2) q j = if (q =? r2)%nat && (j =? i)%nat then x2 else at2 rs1 q j).
    { intros. apply (put_at (S dim)); auto; lia. }
    set (rs2 := put rs1 r2 i x2) in *.
    replace (Z.of_nat i + 1) with (Z.of_nat (S i)) by lia.
    destruct (IH (S i) rs2 gs2 A4 A2 ltac:(lia) ltac:(lia) ltac:(lia) ltac:(lia) ltac:(lia))
      as (rs' & gs' & E & K1 & K2 & K3 & K4 & PG & PR).
    exists rs', gs'. split; [exact E|]. split; [exact K1|]. split; [lia|]. split; [exact K3|]. split; [lia|].
    destruct (Nat.eqb_spec r1 r2) as [|Hn12]; [lia|]. destruct (Nat.eqb_spec r2 r1) as [|Hn21]; [lia|].
    assert (F12 : (r1 =? r2)%nat = false) by (apply Nat.eqb_neq; lia).
    assert (F21 : (r2 =? r1)%nat = false) by (apply Nat.eqb_neq; lia).
    assert (FI : inr (S i) n i = false) by (unfold inr; destruct (Nat.leb_spec (S i) i); [lia|reflexivity]).
    assert (GG : forall q j, at2 gs' q j =
      if inr i (S n) j then
        if (q =? r1)%nat then fadd (at2 gs r1 j) (fmul (fmul d (at2 rs r2 j)) (fmul d (at2 rs r2 j)))
        else if (q =? r2)%nat then fadd (at2 gs r2 j) (fmul (fmul d (at2 rs r1 j)) (fmul d (at2 rs r1 j)))
        else at2 gs q j
      else at2 gs q j).
    { intros q j. rewrite PG, inr_S. rewrite !G2, !G1, !R2, !R1, F12, F21, !Nat.eqb_refl. cbn [andb].
      destruct (Nat.eqb_spec j i) as [->|Hj]; cbn [orb andb].
      - rewrite FI. destruct (Nat.eqb_spec q r2) as [->|]; cbn [andb].
        + rewrite F21. unfold y2. rewrite G1, F21. reflexivity.
        + destruct (Nat.eqb_spec q r1); reflexivity.
      - rewrite !andb_false_r. reflexivity. }
    split; [exact GG|].
    intros q j. rewrite PR, inr_S. rewrite !R2, !R1, F12, F21, !Nat.eqb_refl. cbn [andb].
    destruct (Nat.eqb_spec j i) as [->|Hj]; cbn [orb andb].
    + rewrite FI. destruct (Nat.eqb_spec q r2) as [->|]; cbn [andb].
      * rewrite F21. unfold x2. rewrite R1, F21, PG, FI. reflexivity.
      * destruct (Nat.eqb_spec q r1); [|reflexivity]. unfold x1. rewrite PG, FI. reflexivity.
    + rewrite !andb_false_r. reflexivity.
Qed.

Lemma ada_lemma lr f coef gs : all_len (S dim) gs -> length gs = length rows ->
  let d := glove_diff lr f coef v1 v2 in
  let g1 := nth r1 gs [] in let g2 := nth r2 gs [] in
  ada_train_one lr (Z.of_nat r1) (Z.of_nat r2) f coef (of_rows (S dim) rows, of_rows (S dim) gs) =
  Ret (of_rows (S dim) (upd2 rows r1 r2 (ada_row d v1 v2 g1) (ada_row d v2 v1 g2)),
       of_rows (S dim) (upd2 gs r1 r2 (ada_acc d g1 v2) (ada_acc d g2 v1))).
Proof.
  intros Hg HL d g1 g2. unfold ada_train_one. rewrite !of_rows_slice by (auto; lia). cbn [obind].
  fold v1. rewrite len1. replace (Z.of_nat (S dim) - 1) with (Z.of_nat dim) by lia. rewrite Nat2Z.id.
  cbv zeta.
  rewrite (start_diff f coef lr (fun diff =>
   obind (ada_loop diff (Z.of_nat r1) (Z.of_nat r2) dim 0 (of_rows (S dim) rows) (of_rows (S dim) gs)) (fun '(m1, g1) =>
  obind (cell g1 (Z.of_nat r1) (Z.of_nat dim)) (fun q1 =>
  obind (sub_cell m1 (Z.of_nat r1) (Z.of_nat dim) (fdiv diff (fsqrt q1))) (fun m2 =>
  obind (cell g1 (Z.of_nat r2) (Z.of_nat dim)) (fun q2 =>
  obind (sub_cell m2 (Z.of_nat r2) (Z.of_nat dim) (fdiv diff (fsqrt q2))) (fun m3 =>
  obind (add_cell g1 (Z.of_nat r1) (Z.of_nat dim) (fmul diff diff)) (fun g2 =>
  obind (add_cell g2 (Z.of_nat r2) (Z.of_nat dim) (fmul diff diff)) (fun g3 => Ret (m3, g3)))))))))).
  fold d. change 0 with (Z.of_nat 0).
  destruct (ada_loop_at d dim 0 rows gs H Hg H1 H2 ltac:(lia) ltac:(lia) ltac:(lia))
      as (rs' & gs' & E & K1 & K2 & K3 & K4 & PG & PR). rewrite E. clear E.
  cbn [obind]. rewrite (cell_at (S dim)) by (auto; lia). cbn [obind].
  rewrite (sub_cell_at (S dim)) by (auto; lia). cbn [obind].
  set (x1 := fsub (at2 rs' r1 dim) (fdiv d (fsqrt (at2 gs' r1 dim)))).
  destruct (put_ok (S dim) rs' r1 dim x1 K1) as (A1 & L1).
  assert (R1 : forall q j, at2 (put rs' r1 dim x1) q j = if (q =? r1)%nat && (j =? dim)%nat then x1 else at2 rs' q j).
  { intros. apply (put_at (S dim)); auto; lia. }
  set (rs1 := put rs' r1 dim x1) in *.
  rewrite (cell_at (S dim)) by (auto; lia). cbn [obind].
  rewrite (sub_cell_at (S dim)) by (auto; lia). cbn [obind].
  set (x2 := fsub (at2 rs1 r2 dim) (fdiv d (fsqrt (at2 gs' r2 dim)))).
  destruct (put_ok (S dim) rs1 r2 dim x2 A1) as (A2 & L2).
  assert (R2 : forall q j, at2 (put rs1 r2 dim x2) q j = if (q =? r2)%nat && (j =? dim)%nat then x2 else at2 rs1 q j).
  { intros. apply (put_at (S dim)); auto; lia. }
  set (rs2 := put rs1 r2 dim x2) in *.
  rewrite (add_cell_at (S dim)) by (auto; lia). cbn [obind].
  set (y1 := fadd (at2 gs' r1 dim) (fmul d d)).
  destruct (put_ok (S dim) gs' r1 dim y1 K3) as (A3 & L3).
  assert (G1 : forall q j, at2 (put gs' r1 dim y1) q j = if (q =? r1)%nat && (j =? dim)%nat then y1 else at2 gs' q j).
  { intros. apply (put_at (S dim)); auto; lia. }
  set (gs1 := put gs' r1 dim y1) in *.
  rewrite (add_cell_at (S dim)) by (auto; lia). cbn [obind].
  set (y2 := fadd (at2 gs1 r2 dim) (fmul d d)).
  destruct (put_ok (S dim) gs1 r2 dim y2 A3) as (A4 & L4).
  assert (G2 : forall q j, at2 (put gs1 r2 dim y2) q j = if (q =? r2)%nat && (j =? dim)%nat then y2 else at2 gs1 q j).
  { intros. apply (put_at (S dim)); auto; lia. }
  set (gs2 := put gs1 r2 dim y2) in *.
  pose proof len1 as E1. pose proof len2 as E2.
  assert (E3 : length g1 = S dim) by (apply all_len_nth; auto; lia).
  assert (E4 : length g2 = S dim) by (apply all_len_nth; auto; lia).
  assert (F12 : (r1 =? r2)%nat = false) by (apply Nat.eqb_neq; lia).
  assert (F21 : (r2 =? r1)%nat = false) by (apply Nat.eqb_neq; lia).
  assert (EI : forall j, inr 0 dim j = (j <? dim)%nat) by (intros; reflexivity).
  assert (FD : (dim <? dim)%nat = false) by (apply Nat.ltb_ge; lia).
  destruct (upd2_ok (S dim) rows r1 r2 (ada_row d v1 v2 g1) (ada_row d v2 v1 g2) H) as (B1 & B2);
    [apply (ada_row_length dim); auto|apply (ada_row_length dim); auto|].
  destruct (upd2_ok (S dim) gs r1 r2 (ada_acc d g1 v2) (ada_acc d g2 v1) Hg) as (B3 & B4);
    [apply (ada_acc_length dim); auto|apply (ada_acc_length dim); auto|].
  f_equal. f_equal; f_equal.
  - apply (rows_ext (S dim)); auto; [lia|]. intros q j Hq Hj.
    rewrite (upd2_at (S dim)) by auto. rewrite !(ada_row_nth dim) by auto.
    rewrite R2, R1, PR, EI.
    destruct (Nat.ltb_spec j dim).
    + destruct (Nat.eqb_spec j dim); [lia|]. rewrite !andb_false_r.
      rewrite !(ada_acc_nth dim) by auto. rewrite !PG, EI. destruct (Nat.ltb_spec j dim); [|lia].
      rewrite F21, !Nat.eqb_refl.
      destruct (Nat.eqb_spec q r1) as [->|]; [reflexivity|]. destruct (Nat.eqb_spec q r2) as [->|]; reflexivity.
    + assert (j = dim) as -> by lia. rewrite Nat.eqb_refl, !andb_true_r. unfold x2, x1.
      rewrite R1, F21, !PR, !PG, !EI, FD. cbn [andb].
      destruct (Nat.eqb_spec q r2) as [->|]; [rewrite F21; reflexivity|].
      destruct (Nat.eqb_spec q r1) as [->|]; reflexivity.
  - apply (rows_ext (S dim)); auto; [lia|]. intros q j Hq Hj.
    rewrite (upd2_at (S dim)) by (auto; lia). rewrite !(ada_acc_nth dim) by auto.
    rewrite G2, G1, PG, EI.
    destruct (Nat.ltb_spec j dim).
    + destruct (Nat.eqb_spec j dim); [lia|]. rewrite !andb_false_r.
      destruct (Nat.eqb_spec q r1) as [->|]; [reflexivity|]. destruct (Nat.eqb_spec q r2) as [->|]; reflexivity.
    + assert (j = dim) as -> by lia. rewrite Nat.eqb_refl, !andb_true_r. unfold y2, y1.
      rewrite G1, F21, !PG, !EI, FD. cbn [andb].
      destruct (Nat.eqb_spec q r2) as [->|]; [rewrite F21; reflexivity|].
      destruct (Nat.eqb_spec q r1) as [->|]; reflexivity.
Qed.
End Step.
