From Verif.Lib Require Import Go F64 ListFacts Tac.
From Verif.Model Require Import Matrix Cells.
From Verif.Spec Require Import Rows Training Cells.
From Verif.Proofs Require Import Matrix Word2vec.
Local Open Scope Z_scope.

Definition at2 (rows : list (list f64)) (r j : nat) : f64 := nth j (nth r rows []) fzero.

Lemma zindex_nat {A} (l : list A) i : zindex l (Z.of_nat i) = nth_error l i.
Proof. unfold zindex. destruct (Z.ltb_spec (Z.of_nat i) 0); [lia|]. now rewrite Nat2Z.id. Qed.

Lemma cell_at col rows r i : all_len col rows -> (r < length rows)%nat -> (i < col)%nat ->
  cell (of_rows col rows) (Z.of_nat r) (Z.of_nat i) = Ret (at2 rows r i).
Proof.
  intros H Hr Hi. unfold cell. rewrite of_rows_slice by auto. cbn [obind].
  rewrite zindex_nat. rewrite (nth_error_nth' _ fzero) by (rewrite (all_len_nth col); auto). reflexivity.
Qed.

Definition put (rows : list (list f64)) (r i : nat) (x : f64) : list (list f64) :=
  upd rows r (upd (nth r rows []) i x).

Lemma set_cell_at col rows r i x : all_len col rows -> (r < length rows)%nat -> (i < col)%nat ->
  set_cell (of_rows col rows) (Z.of_nat r) (Z.of_nat i) x = Ret (of_rows col (put rows r i x)).
Proof.
  intros H Hr Hi. unfold set_cell. rewrite of_rows_slice by auto. cbn [obind].
  rewrite zindex_nat. rewrite (nth_error_nth' _ fzero) by (rewrite (all_len_nth col); auto).
  rewrite Nat2Z.id, of_rows_store; auto. rewrite upd_length. apply all_len_nth; auto.
Qed.

Lemma put_ok col rows r i x : all_len col rows -> all_len col (put rows r i x) /\ length (put rows r i x) = length rows.
Proof.
  intros H. unfold put. rewrite upd_length. split; [|reflexivity].
  destruct (Nat.lt_ge_cases r (length rows)).
  - apply all_len_upd; auto. rewrite upd_length. apply all_len_nth; auto.
  - rewrite upd_out by lia. auto.
Qed.

Lemma put_at col rows r i x q j : all_len col rows -> (r < length rows)%nat -> (i < col)%nat ->
  at2 (put rows r i x) q j = if (q =? r)%nat && (j =? i)%nat then x else at2 rows q j.
Proof.
  intros H Hr Hi. unfold at2, put. rewrite nth_upd.
  destruct (Nat.eqb_spec r q) as [->|E].
  - rewrite Nat.eqb_refl. destruct (Nat.ltb_spec q (length rows)); [|lia]. cbn [andb]. rewrite nth_upd.
    rewrite (all_len_nth col) by auto. destruct (Nat.eqb_spec i j) as [->|E'].
    + rewrite Nat.eqb_refl. destruct (Nat.ltb_spec j col); [|lia]. reflexivity.
    + destruct (Nat.eqb_spec j i); [lia|]. reflexivity.
  - destruct (Nat.eqb_spec q r); [lia|]. reflexivity.
Qed.

Lemma rows_ext col rows rows' : all_len col rows -> all_len col rows' -> length rows = length rows' ->
  (forall q j, (q < length rows)%nat -> (j < col)%nat -> at2 rows q j = at2 rows' q j) -> rows = rows'.
Proof.
  intros H H' HL HE. apply (nth_ext _ _ [] [] HL). intros q Hq.
  apply (nth_ext _ _ fzero fzero).
  - rewrite (all_len_nth col rows), (all_len_nth col rows'); auto. lia.
  - intros j Hj. rewrite (all_len_nth col) in Hj by auto. apply HE; auto.
Qed.

Lemma sub_cell_at col rows r i t : all_len col rows -> (r < length rows)%nat -> (i < col)%nat ->
  sub_cell (of_rows col rows) (Z.of_nat r) (Z.of_nat i) t = Ret (of_rows col (put rows r i (fsub (at2 rows r i) t))).
Proof. intros. unfold sub_cell. rewrite cell_at by auto. cbn [obind]. now apply set_cell_at. Qed.

Lemma add_cell_at col rows r i t : all_len col rows -> (r < length rows)%nat -> (i < col)%nat ->
  add_cell (of_rows col rows) (Z.of_nat r) (Z.of_nat i) t = Ret (of_rows col (put rows r i (fadd (at2 rows r i) t))).
Proof. intros. unfold add_cell. rewrite cell_at by auto. cbn [obind]. now apply set_cell_at. Qed.

(** ** The inner product *)
Lemma cell_dot_at col rows r1 r2 : all_len col rows -> (r1 < length rows)%nat -> (r2 < length rows)%nat ->
  forall n i acc, (i + n <= col)%nat ->
  cell_dot (of_rows col rows) (Z.of_nat r1) (Z.of_nat r2) n (Z.of_nat i) acc =
  Ret (fold_left (fun acc j => fadd acc (fmul (at2 rows r1 j) (at2 rows r2 j))) (seq i n) acc).
Proof.
  intros H H1 H2. induction n as [|n IH]; intros i acc Hi; [reflexivity|].
  cbn [cell_dot seq fold_left]. rewrite !cell_at by (auto; lia). cbn [obind].
  replace (Z.of_nat i + 1) with (Z.of_nat (S i)) by lia. apply IH. lia.
Qed.

Lemma fold_left_map {A B C} (f : A -> B -> A) (g : C -> B) : forall l a,
  fold_left f (map g l) a = fold_left (fun a c => f a (g c)) l a.
Proof. induction l as [|c l IH]; intros a; [reflexivity|]. cbn [map fold_left]. apply IH. Qed.

Lemma fold_combine (F : f64 -> f64 -> f64 -> f64) : forall (x y : list f64) acc n, length x = n -> length y = n ->
  fold_left (fun acc p => F acc (fst p) (snd p)) (combine x y) acc =
  fold_left (fun acc j => F acc (nth j x fzero) (nth j y fzero)) (seq 0 n) acc.
Proof.
  induction x as [|a x IH]; intros [|b y] acc n Hx Hy; simpl in Hx, Hy; subst; try discriminate; [reflexivity|].
  cbn [combine fold_left fst snd seq nth]. rewrite (IH y _ (length x)) by lia.
  rewrite <- seq_shift, fold_left_map. reflexivity.
Qed.

Lemma dot_seq x y n : length x = n -> length y = n ->
  dot x y = fold_left (fun acc j => fadd acc (fmul (nth j x fzero) (nth j y fzero))) (seq 0 n) fzero.
Proof. intros. unfold dot. apply (fold_combine (fun acc a b => fadd acc (fmul a b))); auto. Qed.

(** ** The two-row loop *)
Definition inr (i n j : nat) : bool := (i <=? j)%nat && (j <? i + n)%nat.

Lemma inr_S i n j : inr i (S n) j = (j =? i)%nat || inr (S i) n j.
Proof. unfold inr. destruct (Nat.eqb_spec j i), (Nat.leb_spec i j), (Nat.ltb_spec j (i + S n)), (Nat.leb_spec (S i) j), (Nat.ltb_spec j (S i + n)); cbn; lia || reflexivity. Qed.

Lemma pair_loop_at col d r1 r2 : r1 <> r2 -> forall n i rows, all_len col rows ->
  (r1 < length rows)%nat -> (r2 < length rows)%nat -> (i + n <= col)%nat ->
  exists rows', pair_loop d (Z.of_nat r1) (Z.of_nat r2) n (Z.of_nat i) (of_rows col rows) = Ret (of_rows col rows') /\
    all_len col rows' /\ length rows' = length rows /\
    forall q j, at2 rows' q j =
      if inr i n j then
        if (q =? r1)%nat then fsub (at2 rows r1 j) (fmul d (at2 rows r2 j))
        else if (q =? r2)%nat then fsub (at2 rows r2 j) (fmul d (at2 rows r1 j))
        else at2 rows q j
      else at2 rows q j.
Proof.
  intros Hne. induction n as [|n IH]; intros i rows H H1 H2 Hi.
  - exists rows. cbn [pair_loop]. split; [reflexivity|]. split; [auto|]. split; [auto|]. intros q j.
    replace (inr i 0 j) with false; [reflexivity|]. unfold inr. symmetry. apply andb_false_iff.
    destruct (Nat.ltb_spec j (i + 0)); [left; apply Nat.leb_gt; lia|auto].
  - cbn [pair_loop]. rewrite !cell_at by (auto; lia). cbn [obind].
    rewrite sub_cell_at by (auto; lia). cbn [obind].
    set (rows1 := put rows r1 i (fsub (at2 rows r1 i) (fmul d (at2 rows r2 i)))).
    destruct (put_ok col rows r1 i (fsub (at2 rows r1 i) (fmul d (at2 rows r2 i))) H) as (A1 & L1). fold rows1 in A1, L1.
    rewrite sub_cell_at by (auto; lia). cbn [obind].
    set (rows2 := put rows1 r2 i (fsub (at2 rows1 r2 i) (fmul d (at2 rows r1 i)))).
    destruct (put_ok col rows1 r2 i (fsub (at2 rows1 r2 i) (fmul d (at2 rows r1 i))) A1) as (A2 & L2). fold rows2 in A2, L2.
    replace (Z.of_nat i + 1) with (Z.of_nat (S i)) by lia.
    destruct (IH (S i) rows2 A2 ltac:(lia) ltac:(lia) ltac:(lia)) as (rows' & E & A & L & P).
    exists rows'. split; [exact E|]. split; [exact A|]. split; [lia|].
    assert (P1 : forall q j, at2 rows1 q j = if (q =? r1)%nat && (j =? i)%nat then fsub (at2 rows r1 i) (fmul d (at2 rows r2 i)) else at2 rows q j).
    { intros. apply (put_at col); auto. lia. }
    assert (P2 : forall q j, at2 rows2 q j = if (q =? r2)%nat && (j =? i)%nat then fsub (at2 rows1 r2 i) (fmul d (at2 rows r1 i)) else at2 rows1 q j).
    { intros. apply (put_at col); auto; lia. }
    intros q j. rewrite P, inr_S. rewrite !P2, !P1.
    destruct (Nat.eqb_spec r1 r2); [lia|]. destruct (Nat.eqb_spec r2 r1); [lia|]. rewrite !Nat.eqb_refl. cbn [andb].
    destruct (Nat.eqb_spec j i) as [->|Hj]; cbn [orb andb].
    + replace (inr (S i) n i) with false by (unfold inr; destruct (Nat.leb_spec (S i) i); [lia|reflexivity]).
      destruct (Nat.eqb_spec q r2) as [->|]; cbn [andb].
      * destruct (Nat.eqb_spec r2 r1); [lia|]. reflexivity.
      * destruct (Nat.eqb_spec q r1); reflexivity.
    + rewrite !andb_false_r. reflexivity.
Qed.

(** The same row twice: each component is reduced twice by the same amount. *)
Lemma pair_loop_self col d r : forall n i rows, all_len col rows ->
  (r < length rows)%nat -> (i + n <= col)%nat ->
  exists rows', pair_loop d (Z.of_nat r) (Z.of_nat r) n (Z.of_nat i) (of_rows col rows) = Ret (of_rows col rows') /\
    all_len col rows' /\ length rows' = length rows /\
    forall q j, at2 rows' q j =
      if inr i n j && (q =? r)%nat then
        fsub (fsub (at2 rows r j) (fmul d (at2 rows r j))) (fmul d (at2 rows r j))
      else at2 rows q j.
Proof.
  induction n as [|n IH]; intros i rows H H1 Hi.
  - exists rows. cbn [pair_loop]. split; [reflexivity|]. split; [auto|]. split; [auto|]. intros q j.
    replace (inr i 0 j) with false; [reflexivity|]. unfold inr. symmetry. apply andb_false_iff.
    destruct (Nat.ltb_spec j (i + 0)); [left; apply Nat.leb_gt; lia|auto].
  - cbn [pair_loop]. rewrite !cell_at by (auto; lia). cbn [obind].
    rewrite sub_cell_at by (auto; lia). cbn [obind].
    set (x := fsub (at2 rows r i) (fmul d (at2 rows r i))).
    set (rows1 := put rows r i x).
    destruct (put_ok col rows r i x H) as (A1 & L1). fold rows1 in A1, L1.
    rewrite sub_cell_at by (auto; lia). cbn [obind].
    set (rows2 := put rows1 r i (fsub (at2 rows1 r i) (fmul d (at2 rows r i)))).
    destruct (put_ok col rows1 r i (fsub (at2 rows1 r i) (fmul d (at2 rows r i))) A1) as (A2 & L2). fold rows2 in A2, L2.
    replace (Z.of_nat i + 1) with (Z.of_nat (S i)) by lia.
    destruct (IH (S i) rows2 A2 ltac:(lia) ltac:(lia)) as (rows' & E & A & L & P).
    exists rows'. split; [exact E|]. split; [exact A|]. split; [lia|].
    assert (P1 : forall q j, at2 rows1 q j = if (q =? r)%nat && (j =? i)%nat then x else at2 rows q j).
    { intros. apply (put_at col); auto. lia. }
    assert (P2 : forall q j, at2 rows2 q j = if (q =? r)%nat && (j =? i)%nat then fsub (at2 rows1 r i) (fmul d (at2 rows r i)) else at2 rows1 q j).
    { intros. apply (put_at col); auto; lia. }
    intros q j. rewrite P, inr_S. rewrite !P2, !P1. rewrite !Nat.eqb_refl. cbn [andb].
    destruct (Nat.eqb_spec j i) as [->|Hj]; cbn [orb andb].
    + replace (inr (S i) n i) with false by (unfold inr; destruct (Nat.leb_spec (S i) i); [lia|reflexivity]).
      destruct (Nat.eqb_spec q r) as [->|]; cbn [andb]; reflexivity.
    + rewrite !andb_false_r. reflexivity.
Qed.

(** ** Component-wise views *)
Lemma nth_zipw f x y j d : length x = length y -> (j < length x)%nat -> nth j (zipw f x y) d = f (nth j x fzero) (nth j y fzero).
Proof.
  intros H Hj. unfold zipw. rewrite nth_indep with (d' := f fzero fzero).
  - change (f fzero fzero) with ((fun p => f (fst p) (snd p)) (fzero, fzero)). rewrite map_nth, combine_nth by auto. reflexivity.
  - rewrite map_length, combine_length. lia.
Qed.

Lemma vec_length r n : length r = S n -> length (vec r) = n.
Proof. intros H. unfold vec. rewrite removelast_firstn_len, firstn_length. lia. Qed.
Lemma vec_nth r n j : length r = S n -> (j < n)%nat -> nth j (vec r) fzero = nth j r fzero.
Proof.
  intros H Hj. rewrite (app_removelast_last fzero (l := r)) at 2 by (destruct r; discriminate).
  rewrite app_nth1; [reflexivity|]. pose proof (vec_length r n H) as HL. unfold vec in HL. lia.
Qed.
Lemma bias_nth r n : length r = S n -> bias r = nth n r fzero.
Proof.
  intros H. rewrite (app_removelast_last fzero (l := r)) at 2 by (destruct r; discriminate).
  pose proof (vec_length r n H) as HL. unfold vec in HL. rewrite app_nth2 by lia. rewrite HL, Nat.sub_diag. reflexivity.
Qed.
Lemma step_row_length d x y : length x = length y -> length (step_row d x y) = length x.
Proof. apply zipw_length. Qed.
Lemma sgd_row_length d r1 r2 n : length r1 = S n -> length r2 = S n -> length (sgd_row d r1 r2) = S n.
Proof.
  intros H1 H2. unfold sgd_row. rewrite app_length, step_row_length; rewrite !(vec_length _ n); simpl; auto; lia.
Qed.
Lemma nth_snoc (l : list f64) x j n : length l = n -> nth j (l ++ [x]) fzero = if (j <? n)%nat then nth j l fzero else if (j =? n)%nat then x else fzero.
Proof.
  intros H. destruct (Nat.ltb_spec j n).
  - now rewrite app_nth1 by lia.
  - rewrite app_nth2 by lia. destruct (Nat.eqb_spec j n).
    + replace (j - length l)%nat with 0%nat by lia. reflexivity.
    + destruct (j - length l)%nat as [|[|k]] eqn:E; [lia|reflexivity|reflexivity].
Qed.
Lemma upd2_at col rows r1 r2 x y q j : r1 <> r2 -> all_len col rows -> (r1 < length rows)%nat -> (r2 < length rows)%nat ->
  at2 (upd2 rows r1 r2 x y) q j = if (q =? r1)%nat then nth j x fzero else if (q =? r2)%nat then nth j y fzero else at2 rows q j.
Proof.
  intros Hne H H1 H2. unfold at2, upd2. rewrite !nth_upd, upd_length.
  destruct (Nat.eqb_spec r2 q) as [<-|].
  - destruct (Nat.ltb_spec r2 (length rows)); [|lia]. cbn [andb]. destruct (Nat.eqb_spec r2 r1); [lia|]. rewrite Nat.eqb_refl. reflexivity.
  - cbn [andb]. destruct (Nat.eqb_spec r1 q) as [<-|].
    + destruct (Nat.ltb_spec r1 (length rows)); [|lia]. cbn [andb]. rewrite Nat.eqb_refl. reflexivity.
    + cbn [andb]. destruct (Nat.eqb_spec q r1); [lia|]. destruct (Nat.eqb_spec q r2); [lia|]. reflexivity.
Qed.
Lemma upd2_ok col rows r1 r2 x y : all_len col rows -> length x = col -> length y = col ->
  all_len col (upd2 rows r1 r2 x y) /\ length (upd2 rows r1 r2 x y) = length rows.
Proof. intros. unfold upd2. rewrite !upd_length. split; [|reflexivity]. now repeat apply all_len_upd. Qed.
