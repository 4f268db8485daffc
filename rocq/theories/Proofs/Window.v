From Coq Require Import Sorting.Sorted.
From Verif.Lib Require Import Go ListFacts Tac.
From Verif.Model Require Import Window.
From Verif.Spec Require Import Training.
Local Open Scope Z_scope.

Lemma sorted_lt_ext : forall l1 l2, StronglySorted Z.lt l1 -> StronglySorted Z.lt l2 ->
  (forall x, In x l1 <-> In x l2) -> l1 = l2.
Proof.
  induction l1 as [|a l1 IH]; intros l2 S1 S2 H.
  - destruct l2 as [|b l2]; auto. exfalso. apply (proj2 (H b)). left; auto.
  - destruct l2 as [|b l2]. { exfalso. apply (proj1 (H a)). left; auto. }
    inversion S1 as [|? ? S1' F1]; subst. inversion S2 as [|? ? S2' F2]; subst.
    rewrite Forall_forall in F1, F2.
    assert (a = b).
    { destruct (proj1 (H a) (or_introl eq_refl)) as [E|E]; auto.
      destruct (proj2 (H b) (or_introl eq_refl)) as [E'|E']; auto.
      specialize (F1 _ E'). specialize (F2 _ E). lia. }
    subst b. f_equal. apply IH; auto. intros x. split; intros Hx.
    + destruct (proj1 (H x) (or_intror Hx)) as [E|E]; auto. subst x. specialize (F1 _ Hx). lia.
    + destruct (proj2 (H x) (or_intror Hx)) as [E|E]; auto. subst x. specialize (F2 _ Hx). lia.
Qed.

Lemma filter_sorted (f : Z -> bool) l : StronglySorted Z.lt l -> StronglySorted Z.lt (filter f l).
Proof.
  induction 1 as [|a l S IH F]; simpl; [constructor|]. destruct (f a); auto. constructor; auto.
  rewrite Forall_forall in *. intros x Hx. apply filter_In in Hx. apply F. tauto.
Qed.

Fixpoint zrange (a : Z) (n : nat) : list Z := match n with O => [] | S k => a :: zrange (a + 1) k end.

Lemma zrange_In n : forall a x, In x (zrange a n) <-> a <= x < a + Z.of_nat n.
Proof.
  induction n as [|n IH]; intros a x.
  - simpl. lia.
  - cbn [zrange In]. rewrite IH. lia.
Qed.

Lemma zrange_sorted n : forall a, StronglySorted Z.lt (zrange a n).
Proof.
  induction n as [|n IH]; intros a; simpl; constructor; auto.
  rewrite Forall_forall. intros x Hx. apply zrange_In in Hx. lia.
Qed.

Lemma zrange_seq n : forall a, map Z.of_nat (seq a n) = zrange (Z.of_nat a) n.
Proof.
  induction n as [|n IH]; intros a; [reflexivity|]. cbn [seq map zrange]. f_equal.
  rewrite IH. f_equal. lia.
Qed.

Lemma win_loop_ofold {St} (body : Z -> St -> outcome St) len pos window : forall n a st,
  win_loop body len pos window n a st =
  ofold body (filter (fun c => negb (c =? pos) && (0 <=? c) && (c <? len)) (zrange (pos - window + a) n)) st.
Proof.
  induction n as [|n IH]; intros a st; [reflexivity|].
  cbn [win_loop zrange filter].
  replace (pos - window + a + 1) with (pos - window + (a + 1)) by lia.
  destruct (Z.eqb_spec a window) as [Ea|Ea].
  - replace (pos - window + a =? pos) with true by (symmetry; apply Z.eqb_eq; lia).
    cbn [negb andb obind]. apply IH.
  - replace (pos - window + a =? pos) with false by (symmetry; apply Z.eqb_neq; lia).
    cbn [negb andb]. destruct (Z.ltb_spec (pos - window + a) 0).
    + replace (0 <=? pos - window + a) with false by (symmetry; apply Z.leb_gt; lia).
      cbn [orb andb obind]. apply IH.
    + replace (0 <=? pos - window + a) with true by (symmetry; apply Z.leb_le; lia).
      cbn [orb andb]. destruct (Z.geb_spec (pos - window + a) len).
      * replace (pos - window + a <? len) with false by (symmetry; apply Z.ltb_ge; lia).
        cbn [obind]. apply IH.
      * replace (pos - window + a <? len) with true by (symmetry; apply Z.ltb_lt; lia).
        cbn [ofold]. destruct (body (pos - window + a) st); cbn [obind]; auto.
Qed.

Lemma context_In pos r len c : In c (context pos r len) <->
  0 <= c < Z.of_nat len /\ 1 <= Z.abs (c - pos) <= r.
Proof.
  unfold context. rewrite filter_In, zrange_seq, zrange_In, andb_true_iff, !Z.leb_le. lia.
Qed.

Lemma context_sorted pos r len : StronglySorted Z.lt (context pos r len).
Proof. unfold context. rewrite zrange_seq. apply filter_sorted, zrange_sorted. Qed.

Lemma windowed_context {St} (body : Z -> St -> outcome St) len pos window del st :
  0 <= del <= window ->
  windowed body (Z.of_nat len) pos window del st = ofold body (context pos (window - del) len) st.
Proof.
  intros Hd. unfold windowed. rewrite win_loop_ofold. f_equal. apply sorted_lt_ext.
  - apply filter_sorted, zrange_sorted.
  - apply context_sorted.
  - intros x. rewrite filter_In, zrange_In, context_In, !andb_true_iff, negb_true_iff, Z.eqb_neq, Z.leb_le, Z.ltb_lt.
    rewrite Z2Nat.id by lia. lia.
Qed.
