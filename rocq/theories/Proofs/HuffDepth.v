(** The depth of a leaf of an optimal tree: the weight grows like the Fibonacci numbers. *)
From Coq Require Import Lia Permutation.
From Verif.Lib Require Import Go F64 ListFacts Tac.
From Verif.Model Require Import Dictionary Huffman.
From Verif.Spec Require Import Words Tree Fibonacci.
From Verif.Proofs Require Import Dictionary Huffman HuffOpt HuffPath HuffProps.

Fixpoint weight (f : nat -> nat) (t : btree) : nat := match t with BLeaf i => f i | BNode l r => weight f l + weight f r end.
Definition optimal (f : nat -> nat) (t : btree) : Prop := forall t', Permutation (bleaves t') (bleaves t) -> bcost f 0 t <= bcost f 0 t'.
(** A node at depth [k]. *)
Inductive at_depth : btree -> nat -> Prop :=
| ad_here t : at_depth t 0
| ad_left l r k : at_depth l k -> at_depth (BNode l r) (S k)
| ad_right l r k : at_depth r k -> at_depth (BNode l r) (S k).

Lemma bcost_shift f t : forall d, bcost f d t = bcost f 0 t + d * weight f t.
Proof.
  induction t as [i|l IHl r IHr]; intros d; cbn [bcost weight]; [lia|]. rewrite (IHl (S d)), (IHr (S d)), (IHl 1), (IHr 1). lia.
Qed.
Lemma weight_sum f t : weight f t = list_sum (map f (bleaves t)).
Proof. induction t as [i|l IHl r IHr]; cbn; [lia|]. rewrite map_app, list_sum_app. lia. Qed.

Lemma optimal_left f l r : optimal f (BNode l r) -> optimal f l.
Proof.
  intros H t' HP. specialize (H (BNode t' r)). cbn [bleaves bcost] in H. specialize (H (Permutation_app_tail _ HP)).
  rewrite (bcost_shift f l 1), (bcost_shift f t' 1) in H. pose proof (weight_sum f l) as W1. pose proof (weight_sum f t') as W2.
  assert (list_sum (map f (bleaves t')) = list_sum (map f (bleaves l))) by (apply list_sum_perm, Permutation_map, HP). lia.
Qed.
Lemma optimal_swap f l r : optimal f (BNode l r) -> optimal f (BNode r l).
Proof.
  intros H t' HP. cbn [bcost]. specialize (H t'). cbn [bleaves bcost] in *. rewrite Nat.add_comm. apply H. etransitivity; [exact HP|apply Permutation_app_comm].
Qed.
Lemma optimal_right f l r : optimal f (BNode l r) -> optimal f r.
Proof. intros H. apply optimal_swap in H. eapply optimal_left, H. Qed.
(** The uncle is at least as heavy. *)
Lemma uncle f a b s : optimal f (BNode (BNode a b) s) -> weight f a <= weight f s.
Proof.
  intros H. specialize (H (BNode (BNode s b) a)). cbn [bleaves bcost] in H.
  assert (HP : Permutation ((bleaves s ++ bleaves b) ++ bleaves a) ((bleaves a ++ bleaves b) ++ bleaves s)).
  { etransitivity; [apply Permutation_app_comm|]. rewrite <- app_assoc. apply Permutation_app_head, Permutation_app_comm. }
  specialize (H HP). rewrite (bcost_shift f a 2), (bcost_shift f s 1), (bcost_shift f s 2), (bcost_shift f a 1) in H. lia.
Qed.

Lemma fib_step k : fib (S (S k)) = (fib (S k) + fib k)%Z.
Proof. reflexivity. Qed.
Lemma fib_nonneg k : (0 <= fib k /\ 0 <= fib (S k))%Z.
Proof. induction k as [|k IH]; [cbn; lia|]. rewrite fib_step. lia. Qed.

Lemma depth_weight f : forall k t, optimal f t -> (forall i, In i (bleaves t) -> 1 <= f i) -> at_depth t k -> (fib (S (S k)) <= Z.of_nat (weight f t))%Z.
Proof.
  assert (HH : forall k, (forall t, optimal f t -> (forall i, In i (bleaves t) -> 1 <= f i) -> at_depth t k -> (fib (S (S k)) <= Z.of_nat (weight f t))%Z) /\
                         (forall t, optimal f t -> (forall i, In i (bleaves t) -> 1 <= f i) -> at_depth t (S k) -> (fib (S (S (S k))) <= Z.of_nat (weight f t))%Z)).
  { induction k as [|k (IH1 & IH2)].
    - assert (HW : forall t, (forall i, In i (bleaves t) -> 1 <= f i) -> 1 <= weight f t).
      { induction t as [i|l IHl r IHr]; intros H; cbn [weight]; [apply H; left; reflexivity|]. specialize (IHl ltac:(intros i Hi; apply H; cbn; apply in_or_app; auto)). lia. }
      split; intros t HO HF HA.
      + specialize (HW t HF). change (fib 2) with 1%Z. lia.
      + change (fib 3) with 2%Z. destruct t as [i|l r]; [inversion HA|]. cbn [weight].
        pose proof (HW l ltac:(intros i Hi; apply HF; cbn; apply in_or_app; auto)). pose proof (HW r ltac:(intros i Hi; apply HF; cbn; apply in_or_app; auto)). lia.
    - split; [exact IH2|]. intros t HO HF HA. rewrite fib_step.
      assert (HC : forall l r, optimal f (BNode l r) -> (forall i, In i (bleaves (BNode l r)) -> 1 <= f i) -> at_depth l (S k) -> (fib (S (S (S k))) + fib (S (S k)) <= Z.of_nat (weight f l + weight f r))%Z).
      { intros l r HO' HF' HL.
        assert (HFl : forall i, In i (bleaves l) -> 1 <= f i) by (intros i Hi; apply HF'; cbn; apply in_or_app; auto).
        pose proof (IH2 l (optimal_left _ _ _ HO') HFl HL) as H1.
        assert (HU : forall a b, optimal f (BNode (BNode a b) r) -> (forall i, In i (bleaves a) -> 1 <= f i) -> at_depth a k -> (fib (S (S k)) <= Z.of_nat (weight f r))%Z).
        { intros a b HO2 HFa HAa. pose proof (uncle f a b r HO2). pose proof (IH1 a ltac:(eapply optimal_left, optimal_left, HO2) HFa HAa). lia. }
        inversion HL as [|a b k' Ha E1 E2|a b k' Hb E1 E2]; subst.
        - specialize (HU a b HO' ltac:(intros i Hi; apply HFl; cbn; apply in_or_app; auto) Ha). lia.
        - assert (HO2 : optimal f (BNode (BNode b a) r)).
          { intros t' HP. specialize (HO' t'). cbn [bleaves bcost] in *. etransitivity; [|apply HO'; etransitivity; [exact HP|apply Permutation_app_tail, Permutation_app_comm]]. lia. }
          specialize (HU b a HO2 ltac:(intros i Hi; apply HFl; cbn; apply in_or_app; auto) Hb). lia. }
      inversion HA as [|l r k' Hl E1 E2|l r k' Hr E1 E2]; subst; cbn [weight].
      + apply HC; auto.
      + rewrite (Nat.add_comm (weight f l)). apply HC; [apply optimal_swap, HO| |exact Hr]. intros i Hi. apply HF. cbn in *. apply in_app_or in Hi. apply in_or_app. tauto. }
  intros k. apply HH.
Qed.

Lemma inpath_depth t q c x : inpath t q c x -> at_depth (strip t) (length c).
Proof. induction 1; cbn; [apply ad_here|apply ad_left|apply ad_right]; auto. Qed.

Lemma count_pos ws d i : dict_repr ws d -> i < dict_len d -> 1 <= freq_of d i.
Proof.
  intros R Hi. unfold dict_len in Hi. destruct (nth_error (distinct ws) i) as [w|] eqn:E; [|apply nth_error_None in E; rewrite (repr_max _ _ R) in Hi; lia].
  unfold freq_of. rewrite (repr_cfs _ _ R). rewrite (nth_error_nth _ _ _ (map_nth_error (fun w => occurrences w ws) i (distinct ws) E)). apply nth_error_In in E.
  apply (proj1 (In_distinct _ _)) in E. unfold occurrences. apply (proj1 (count_occ_In gostring_eq_dec _ _)) in E. exact E.
Qed.

Lemma fib_pow k : (2 ^ (Z.of_nat k / 2) <= fib (S k))%Z.
Proof.
  assert (H : (2 ^ Z.of_nat (Nat.div2 k) <= fib (S k))%Z /\ (2 ^ Z.of_nat (Nat.div2 (S k)) <= fib (S (S k)))%Z).
  { induction k as [|k (IH1 & IH2)]; [cbn; lia|]. split; [exact IH2|]. rewrite fib_step.
    destruct k as [|k]; [cbn; lia|]. change (Nat.div2 (S (S (S k)))) with (S (Nat.div2 (S k))). rewrite Nat2Z.inj_succ, Z.pow_succ_r by lia.
    rewrite (fib_step (S k)). pose proof (fib_nonneg k). rewrite (fib_step k) in *. 
    change (Nat.div2 (S (S k))) with (S (Nat.div2 k)) in IH2. rewrite Nat2Z.inj_succ, Z.pow_succ_r in IH2 by lia. lia. }
  destruct H as (H & _). rewrite Nat.div2_div, Nat2Z.inj_div in H. exact H.
Qed.

Lemma tree_depth calls dim h set :
  let d := fold_left dict_add calls dict_new in
  huffman_tree d dim = Ret (h, set) ->
  forall i, i < dict_len d -> exists q, root_path (fun y => hn_parent (hget h y)) q i /\ (fib (S (length q)) <= Z.of_nat (length (concat calls)))%Z.
Proof.
  intros d E i Hi. assert (Hpos : 1 <= dict_len d) by lia.
  destruct (full_paths calls dim h set E Hpos) as (t & HI & HW & HF). fold d in HI, HW, HF.
  destruct (inv1_ptrs _ _ _ _ _ HI) as (Hpt & Hnd & Hlen & Hlf & HPl & HR & Hroot & Hnl).
  destruct (huffman_inv _ _ _ _ E) as (R & _). fold d in R.
  destruct (HF i Hi) as (q & c & Hq & Hl & _). exists q.
  split; [exact (inpath_root_path _ _ _ _ _ _ _ _ Hq HR Hroot)|].
  assert (HO : optimal (freq_of d) (strip t)).
  { intros t' Ht'. destruct HW as (W & HS & HP & HE). rewrite HE. apply hcost_opt_tree; auto.
    - apply insW_perm.
    - intros; apply insW_sorted; auto.
    - rewrite strip_leaves in Ht'. etransitivity; [apply Permutation_map; etransitivity; [exact Ht'|exact HPl]|apply Permutation_sym; exact HP]. }
  pose proof (depth_weight (freq_of d) (length c) (strip t) HO) as HD.
  rewrite (inpath_length _ _ _ _ Hq). rewrite weight_sum, strip_leaves, (list_sum_perm _ _ (Permutation_map (freq_of d) HPl)), (freq_total _ _ R) in HD.
  apply HD; [|eapply inpath_depth, Hq]. intros j Hj. eapply count_pos; [exact R|]. apply Hlf in Hj. exact Hj.
Qed.
