From Coq Require Import Lia.
From Verif.Lib Require Import Go F64 ListFacts.
From Verif.Model Require Import Matrix.
From Verif.Spec Require Import Rows.
Local Open Scope Z_scope.

Definition mat_wf (m : matrix) : Prop :=
  0 <= m_row m /\ 0 <= m_col m /\ Z.of_nat (length (m_array m)) = m_row m * m_col m.

Lemma nth_error_firstn_skipn {A} (l : list A) s n k :
  nth_error (firstn n (skipn s l)) k = if (k <? n)%nat then nth_error l (s + k) else None.
Proof.
  assert (H1 : forall (l : list A) n k, nth_error (firstn n l) k = if (k <? n)%nat then nth_error l k else None).
  { clear. induction l as [|x l IH]; intros [|n] [|k]; cbn [firstn nth_error]; try reflexivity.
    - destruct (_ <? _)%nat; auto.
    - rewrite IH. reflexivity. }
  rewrite H1. destruct (k <? n)%nat; auto.
  revert s; induction l as [|x l IH]; intros [|s]; cbn; auto.
  destruct k; reflexivity.
Qed.

Lemma nth_error_splice {A} (l r : list A) s p : (s + length r <= length l)%nat ->
  nth_error (firstn s l ++ r ++ skipn (s + length r) l) p =
  if ((s <=? p) && (p <? s + length r))%nat%bool then nth_error r (p - s) else nth_error l p.
Proof.
  intros H.
  assert (Hf : length (firstn s l) = s) by (rewrite firstn_length; lia).
  destruct (Nat.leb_spec s p) as [Hsp|Hsp]; cbn [andb].
  - rewrite nth_error_app2 by lia. rewrite Hf.
    destruct (Nat.ltb_spec p (s + length r)).
    + rewrite nth_error_app1 by lia. reflexivity.
    + rewrite nth_error_app2 by lia.
      assert (H2 : forall (l : list A) s k, nth_error (skipn s l) k = nth_error l (s + k)).
      { clear. induction l as [|x l IH]; intros [|s] k; cbn; auto. destruct k; reflexivity. }
      rewrite H2. f_equal. lia.
  - rewrite nth_error_app1 by lia.
    rewrite <- (firstn_skipn s l) at 2. rewrite nth_error_app1 by lia. reflexivity.
Qed.

Lemma splice_length {A} (l r : list A) s : (s + length r <= length l)%nat ->
  length (firstn s l ++ r ++ skipn (s + length r) l) = length l.
Proof. intros. rewrite !app_length, firstn_length, skipn_length. lia. Qed.

Lemma mat_slice_ok m i : mat_wf m -> 0 <= i < m_row m ->
  exists l, mat_slice m i = Ret l /\ Z.of_nat (length l) = m_col m /\
    l = firstn (Z.to_nat (m_col m)) (skipn (Z.to_nat (i * m_col m)) (m_array m)).
Proof.
  intros (Hr & Hc & Hl) Hi. unfold mat_slice, slice_ok, start_index.
  assert (0 <= i * m_col m) by nia. assert (i * m_col m + m_col m <= m_row m * m_col m) by nia.
  destruct (Z.leb_spec 0 (i * m_col m)); [|lia].
  destruct (Z.leb_spec (i * m_col m) (i * m_col m + m_col m)); [|lia].
  destruct (Z.leb_spec (i * m_col m + m_col m) (Z.of_nat (length (m_array m)))); [|lia].
  eexists. split; [reflexivity|]. split; [|reflexivity].
  rewrite firstn_length, skipn_length. lia.
Qed.

Lemma mat_slice_out m i : mat_wf m -> 1 <= m_col m -> i < 0 \/ m_row m <= i -> mat_slice m i = Panic.
Proof.
  intros (Hr & Hc & Hl) Hc1 Hi. unfold mat_slice, slice_ok, start_index.
  destruct (Z.leb_spec 0 (i * m_col m)); [|reflexivity].
  destruct (Z.leb_spec (i * m_col m + m_col m) (Z.of_nat (length (m_array m)))).
  - exfalso. destruct Hi; nia.
  - rewrite andb_false_r. reflexivity.
Qed.

Lemma mat_store_wf m i row : mat_wf m -> 0 <= i < m_row m -> Z.of_nat (length row) = m_col m ->
  mat_wf (mat_store m i row) /\ m_row (mat_store m i row) = m_row m /\ m_col (mat_store m i row) = m_col m.
Proof.
  intros (Hr & Hc & Hl) Hi Hrow. unfold mat_store, mat_wf, start_index; cbn.
  assert (0 <= i * m_col m) by nia. assert (i * m_col m + m_col m <= m_row m * m_col m) by nia.
  rewrite splice_length by lia. auto.
Qed.

Lemma mat_store_slice m i row j : mat_wf m -> 0 <= i < m_row m -> Z.of_nat (length row) = m_col m ->
  0 <= j < m_row m ->
  mat_slice (mat_store m i row) j = if i =? j then Ret row else mat_slice m j.
Proof.
  intros Hwf Hi Hrow Hj.
  destruct (mat_store_wf m i row Hwf Hi Hrow) as (Hwf' & Er & Ec).
  destruct (mat_slice_ok _ j Hwf') as (l & El & Hll & Hl); [rewrite Er; auto|].
  destruct (mat_slice_ok m j Hwf Hj) as (l0 & El0 & Hll0 & Hl0).
  rewrite El, El0. rewrite Ec in Hll, Hl. destruct Hwf as (Hr & Hc & Hlen).
  assert (B1 : 0 <= i * m_col m) by nia. assert (B2 : i * m_col m + m_col m <= m_row m * m_col m) by nia.
  assert (B3 : 0 <= j * m_col m) by nia. assert (B4 : j * m_col m + m_col m <= m_row m * m_col m) by nia.
  destruct (Z.eqb_spec i j) as [->|Hne]; f_equal.
  - apply nth_ext_error. intros k. rewrite Hl, nth_error_firstn_skipn. unfold mat_store, start_index; cbn [m_array m_col m_row].
    destruct (Nat.ltb_spec k (Z.to_nat (m_col m))).
    + rewrite nth_error_splice by lia.
      replace ((Z.to_nat (j * m_col m) <=? Z.to_nat (j * m_col m) + k)
        && (Z.to_nat (j * m_col m) + k <? Z.to_nat (j * m_col m) + length row))%nat%bool with true.
      * cbv iota. f_equal. lia.
      * symmetry. apply andb_true_iff. split; [apply Nat.leb_le|apply Nat.ltb_lt]; lia.
    + symmetry. apply nth_error_None. lia.
  - apply nth_ext_error. intros k. rewrite Hl, Hl0, !nth_error_firstn_skipn. unfold mat_store, start_index; cbn [m_array m_col m_row].
    destruct (Nat.ltb_spec k (Z.to_nat (m_col m))); [|reflexivity].
    rewrite nth_error_splice by lia.
    replace ((Z.to_nat (i * m_col m) <=? Z.to_nat (j * m_col m) + k)
        && (Z.to_nat (j * m_col m) + k <? Z.to_nat (i * m_col m) + length row))%nat%bool with false; [reflexivity|].
    symmetry. apply andb_false_iff.
    destruct (Z.lt_gt_cases i j) as [Hlt _]. destruct (Hlt Hne) as [H'|H'].
    + right. apply Nat.ltb_ge. assert (i * m_col m + m_col m <= j * m_col m) by nia. lia.
    + left. apply Nat.leb_gt. assert (j * m_col m + m_col m <= i * m_col m) by nia. lia.
Qed.

Section Fill.
  Context {St : Type} (fn : St -> Z -> list f64 -> St * list f64).
  Hypothesis fn_len : forall st i l, length (snd (fn st i l)) = length l.

  Lemma mat_fill_spec col : forall n i st m,
    mat_wf m -> m_col m = Z.of_nat col -> 0 <= i -> i + Z.of_nat n = m_row m ->
    (forall j, i <= j < m_row m -> mat_slice m j = Ret (repeat fzero col)) ->
    exists m', mat_fill fn n i st m = Ret (fst (row_calls fn col n i st), m') /\
      mat_wf m' /\ m_row m' = m_row m /\ m_col m' = m_col m /\
      (forall j, 0 <= j < i -> mat_slice m' j = mat_slice m j) /\
      (forall k, (k < n)%nat -> mat_slice m' (i + Z.of_nat k) = Ret (nth k (snd (row_calls fn col n i st)) [])).
  Proof.
    induction n as [|n IH]; intros i st m Hwf Hcol Hi Hn Hz.
    - exists m. cbn. repeat (split; [auto|]). intros k Hk; lia.
    - cbn [mat_fill row_calls]. rewrite Hz by lia. cbn [obind].
      destruct (fn st i (repeat fzero col)) as [st1 row] eqn:Ef.
      assert (Hrow : Z.of_nat (length row) = m_col m).
      { pose proof (fn_len st i (repeat fzero col)) as H. rewrite Ef, repeat_length in H. cbn in H. lia. }
      destruct (mat_store_wf m i row Hwf ltac:(lia) Hrow) as (Hwf1 & Er1 & Ec1).
      destruct (IH (i + 1) st1 (mat_store m i row)) as (m' & E & Hwf' & Er' & Ec' & Hb & Ha).
      + exact Hwf1.
      + lia.
      + lia.
      + lia.
      + intros j Hj. rewrite mat_store_slice by (auto; lia).
        destruct (Z.eqb_spec i j); [lia|]. apply Hz. lia.
      + destruct (row_calls fn col n (i + 1) st1) as [st2 rows] eqn:Er.
        exists m'. split; [exact E|]. split; [exact Hwf'|]. split; [lia|]. split; [lia|]. split.
        * intros j Hj. rewrite Hb by lia. rewrite mat_store_slice by (auto; lia).
          destruct (Z.eqb_spec i j); [lia|reflexivity].
        * intros [|k] Hk; cbn [nth snd].
          -- rewrite Z.add_0_r. rewrite Hb by lia. rewrite mat_store_slice by (auto; lia).
             rewrite Z.eqb_refl. reflexivity.
          -- replace (i + Z.of_nat (S k)) with (i + 1 + Z.of_nat k) by lia. apply Ha. lia.
  Qed.
End Fill.

Lemma repeat_firstn_skipn {A} (x : A) n s c : (s + c <= n)%nat -> firstn c (skipn s (repeat x n)) = repeat x c.
Proof.
  intros H. replace n with (s + (c + (n - s - c)))%nat by lia. rewrite !repeat_app.
  rewrite skipn_app, skipn_all2, repeat_length, Nat.sub_diag by (rewrite repeat_length; lia). cbn [skipn app].
  rewrite firstn_app, repeat_length, Nat.sub_diag. cbn [firstn]. rewrite app_nil_r.
  rewrite firstn_all2 by (rewrite repeat_length; lia). reflexivity.
Qed.

Lemma mat_new_lemma {St} (fn : St -> Z -> list f64 -> St * list f64) (st : St) r c :
  (forall st i l, length (snd (fn st i l)) = length l) -> 0 <= r -> 0 <= c ->
  let run := row_calls fn (Z.to_nat c) (Z.to_nat r) 0 st in
  exists m, mat_new r c fn st = Ret (fst run, m) /\ mat_wf m /\ m_row m = r /\ m_col m = c /\
    forall i, 0 <= i < r -> mat_slice m i = Ret (nth (Z.to_nat i) (snd run) []).
Proof.
  intros Hfn Hr Hc run. unfold mat_new. destruct (Z.ltb_spec (r * c) 0); [nia|].
  set (m0 := Mat (repeat fzero (Z.to_nat (r * c))) r c).
  assert (Hwf : mat_wf m0). { unfold mat_wf; cbn. rewrite repeat_length. lia. }
  destruct (mat_fill_spec fn Hfn (Z.to_nat c) (Z.to_nat r) 0 st m0) as (m & E & Hwf' & Er & Ec & _ & Ha); auto.
  - cbn. lia.
  - lia.
  - cbn. lia.
  - intros j Hj. destruct (mat_slice_ok m0 j Hwf) as (l & El & _ & Hl); [lia|]. rewrite El, Hl. cbn.
    rewrite repeat_firstn_skipn; [reflexivity|]. cbn in Hj. 
    assert (0 <= j * c) by nia. assert (j * c + c <= r * c) by nia. lia.
  - exists m. split; [exact E|]. split; [exact Hwf'|]. split; [exact Er|]. split; [exact Ec|].
    intros i Hi. replace i with (0 + Z.of_nat (Z.to_nat i)) at 1 by lia. apply Ha. lia.
Qed.

Lemma matrix_lemma {St} (fn : St -> Z -> list f64 -> St * list f64) (st : St) r c :
  (forall st i l, length (snd (fn st i l)) = length l) -> 0 <= r -> 0 <= c ->
  let run := row_calls fn (Z.to_nat c) (Z.to_nat r) 0 st in
  exists m, mat_new r c fn st = Ret (fst run, m) /\ m_row m = r /\ m_col m = c /\
    (forall i, 0 <= i < r -> mat_slice m i = Ret (nth (Z.to_nat i) (snd run) [])) /\
    (* from here on [m'] is the matrix after any history of writes of full rows *)
    forall writes : list (Z * list f64),
      Forall (fun w => 0 <= fst w < r /\ Z.of_nat (length (snd w)) = c) writes ->
      let m' := fold_left (fun m w => mat_store m (fst w) (snd w)) writes m in
      m_row m' = r /\ m_col m' = c /\
      (forall i, 0 <= i < r -> exists l, mat_slice m' i = Ret l /\ Z.of_nat (length l) = c) /\
      (forall i, 1 <= c -> i < 0 \/ r <= i -> mat_slice m' i = Panic) /\
      (forall i row, 0 <= i < r -> Z.of_nat (length row) = c ->
         forall j, 0 <= j < r -> mat_slice (mat_store m' i row) j = if i =? j then Ret row else mat_slice m' j).
Proof.
  intros Hfn Hr Hc run. destruct (mat_new_lemma fn st r c Hfn Hr Hc) as (m & E & Hwf & Er & Ec & Hs).
  exists m. split; [exact E|]. split; [exact Er|]. split; [exact Ec|]. split; [exact Hs|].
  intros writes HF m'.
  assert (Hwf' : mat_wf m' /\ m_row m' = r /\ m_col m' = c).
  { unfold m'. clear E Hs m'. revert m Hwf Er Ec. induction HF as [|w writes [Hw1 Hw2] HF IH]; intros m Hwf Er Ec; cbn; auto.
    destruct (mat_store_wf m (fst w) (snd w) Hwf) as (H1 & H2 & H3); [lia|lia|].
    apply IH; auto; lia. }
  destruct Hwf' as (Hwf' & Er' & Ec').
  split; [exact Er'|]. split; [exact Ec'|]. split.
  - intros i Hi. destruct (mat_slice_ok m' i Hwf') as (l & El & Hl & _); [lia|]. exists l. split; auto; lia.
  - split.
    + intros i Hc1 Hi. apply mat_slice_out; auto; lia.
    + intros i row Hi Hrow j Hj. apply mat_store_slice; auto; lia.
Qed.
