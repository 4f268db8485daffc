(** * C109: hierarchical softmax gives every word a probability, and training ascends it

    [path_prob s code path] is the probability of descending along [path] when an inner node p is left
    towards its child with code 0 with probability [s p]; word2vec uses the logistic function of the
    inner product of the node's vector and the context for [s p]. [prob_of s h i depth] is that for the
    path that GetPath(depth) returns for word [i], and [rsum] the sum of a list (Spec/Likelihood.v). *)
From Coq Require Import Lia Lra Reals.
From Verif.Lib Require Import Go F64.
From Verif.Spec Require Import Words Tree Likelihood Logistic.
From Verif.Model Require Import Dictionary Huffman.
From Verif.Proofs Require Huffman HuffPath HuffProps Likelihood.
Local Open Scope R_scope.

(** C109. If the limit cuts no path (C108), the probabilities of all words add up to 1, whatever the
    vectors are; each is positive. *)
Theorem C109_distribution : forall calls dim h set s depth,
  let d := fold_left dict_add calls dict_new in
  huffman_tree d dim = Ret (h, set) -> (1 <= dict_len d)%nat ->
  (0 <= depth)%Z ->
  (forall i path, (i < dict_len d)%nat -> root_path (fun y => hn_parent (hget h y)) path i -> (Z.of_nat (length path) <= depth)%Z) ->
  rsum (map (fun i => prob_of s h i depth) (seq 0 (dict_len d))) = 1.
Proof.
  intros calls dim h set s depth d E Hn Hd HP. destruct (Likelihood.sum_limited calls dim h set E Hn) as (t & HR & _ & HS & H1 & H2). fold d in HR, HS, H1, H2.
  rewrite HS by exact Hd. apply (Likelihood.limited_one _ _ _ h s t _ HR). apply Likelihood.height_le. intros i q Hq. destruct (H2 i q Hq) as (Hi & Hr). specialize (HP i q Hi Hr). lia.
Qed.
Print Assumptions C109_distribution.

Theorem C109_positive : forall calls dim h set s i depth,
  let d := fold_left dict_add calls dict_new in
  huffman_tree d dim = Ret (h, set) -> (i < dict_len d)%nat -> (0 <= depth)%Z -> (forall p, 0 < s p < 1) ->
  0 < prob_of s h i depth.
Proof.
  intros calls dim h set s i depth d E Hi Hd Hs. unfold prob_of.
  assert (Hl : (i < length h)%nat).
  { destruct (HuffProps.huffman_inv _ _ _ _ E) as (_ & Hd' & _). destruct (HuffProps.huffman_structure_lemma calls dim) as (_ & HP).
    destruct (HP Hd') as (h' & E' & HL & _). fold d in E', HL. assert (h' = h) by congruence. subst h'. lia. }
  destruct (HuffProps.get_path_lemma calls dim h set E i Hl) as (p & Hp & HG). destruct (HG [] ltac:(constructor)) as (HG' & _). cbn [fold_left] in HG'. rewrite HG'.
  destruct (Z.ltb_spec depth 0); [lia|]. apply Likelihood.path_prob_pos, Hs.
Qed.
Print Assumptions C109_positive.

(** C109. If the limit cuts the path of some word, they add up to more than 1: MaxDepth then optimizes
    something that is no probability distribution. *)
Theorem C109_cut : forall calls dim h set s depth i path,
  let d := fold_left dict_add calls dict_new in
  huffman_tree d dim = Ret (h, set) -> (2 <= dict_len d)%nat -> (0 <= depth)%Z -> (forall p, 0 < s p < 1) ->
  (i < dict_len d)%nat -> root_path (fun y => hn_parent (hget h y)) path i -> (depth < Z.of_nat (length path))%Z ->
  1 < rsum (map (fun i => prob_of s h i depth) (seq 0 (dict_len d))).
Proof.
  intros calls dim h set s depth i path d E Hn Hd Hs Hi Hp HL.
  destruct (Likelihood.sum_limited calls dim h set E ltac:(fold d; lia)) as (t & HR & HT & HS & H1 & H2). fold d in HR, HS, HT, H1, H2.
  rewrite HS by exact Hd. destruct (Likelihood.limited_ge _ _ _ h s Hs t (Z.to_nat depth) HR) as (_ & HG). apply HG.
  - apply Nat.nle_gt. intros H. rewrite (Likelihood.height_le t (Z.to_nat depth)) in H. specialize (H i path (H1 i path Hi Hp)). lia.
  - right. exact I.
  - destruct t as [p|p l r]; [cbn in HT; lia|eauto].
Qed.
Print Assumptions C109_cut.

(** C109. The derivative of the log-probability of word [i] in the score of an inner node p of its path,
    with q the next node, is 1 - code(q) - logistic(score): the factor with which training moves the
    vector of p along the context and the word's vector along that of p (C93, C34). *)
Theorem C109_gradient : forall calls dim h set s i l1 p q l2 x,
  let d := fold_left dict_add calls dict_new in
  huffman_tree d dim = Ret (h, set) -> (i < dict_len d)%nat -> (forall y, 0 < s y < 1) ->
  root_path (fun y => hn_parent (hget h y)) (l1 ++ p :: q :: l2) i ->
  let code := fun y => hn_code (hget h y) in
  (code q = 0 \/ code q = 1)%nat /\
  derivable_pt_lim (fun t => ln (path_prob (at_score s p t) code (l1 ++ p :: q :: l2))) x (1 - INR (code q) - logistic x).
Proof.
  intros calls dim h set s i l1 p q l2 x d E Hi Hs Hp code.
  assert (HN : NoDup (l1 ++ p :: q :: l2)) by (eapply Likelihood.path_nodup; eauto).
  assert (HC : (code q = 0 \/ code q = 1)%nat).
  { destruct (HuffProps.huffman_inv _ _ _ _ E) as (_ & Hd' & _). destruct (HuffProps.huffman_structure_lemma calls dim) as (_ & HP).
    destruct (HP Hd') as (h' & E' & HL & _ & HM & _). fold d in E', HL, HM. assert (h' = h) by congruence. subst h'. clear E'.
    assert (Hpar : hn_parent (hget h q) = Some p) by (destruct Hp as (_ & H & _); exact (H l1 p q l2 eq_refl)).
    assert (Lq : (q < length h)%nat).
    { destruct (Nat.lt_ge_cases q (length h)) as [H|H]; [exact H|]. unfold hget in Hpar. rewrite nth_overflow in Hpar by exact H. discriminate Hpar. }
    destruct (Likelihood.sum_limited calls dim h set E ltac:(fold d; lia)) as (t & HR & _ & _ & H1 & _). fold d in HR, H1.
    pose proof (H1 i _ Hi Hp) as Hin. destruct (Likelihood.lpaths_inpath _ _ _ Hin) as (c & Hc). 
    destruct (HuffPath.inpath_links _ _ _ _ _ _ _ _ Hc HR) as (_ & _ & Hco).
    assert (In (code q) c) as Hq.
    { rewrite <- Hco. apply (in_map (fun y => hn_code (hget h y))). destruct l1; cbn [app tl]; [left; reflexivity|]. apply in_or_app. right. right. left. reflexivity. }
    clear - Hc Hq. induction Hc; [destruct Hq|destruct Hq as [<-|Hq]; auto|destruct Hq as [<-|Hq]; auto]. }
  split; [exact HC|]. apply NoDup_remove in HN. destruct HN as (_ & HN).
  replace (1 - INR (code q) - logistic x) with ((if Nat.eqb (code q) 0 then 1 else 0) - logistic x) by (destruct HC as [-> | ->]; cbn; lra).
  apply Likelihood.log_prob_deriv; [exact Hs| |]; intros H; apply HN, in_or_app; auto.
Qed.
Print Assumptions C109_gradient.

(** Four words with frequencies 4, 1, 2, 1 and all scores 0: paths of 2, 4, 3 and 4 nodes. The limit 4
    cuts nothing; the limit 3 makes the sum 5/4. *)
Definition four_words : list (list gostring) := [[bs "a"; bs "b"; bs "a"; bs "c"; bs "a"; bs "d"; bs "c"; bs "a"]].
Definition half : nat -> R := fun _ => 1 / 2.
Lemma half_prob code path : path_prob half code path = (1 / 2) ^ (length path - 1).
Proof.
  induction path as [|p path IH]; [cbn; lra|]. destruct path as [|q rest]; [cbn; lra|].
  change (path_prob half code (p :: q :: rest)) with ((if Nat.eqb (code q) 0 then half p else 1 - half p) * path_prob half code (q :: rest)).
  rewrite IH. unfold half. cbn [length Nat.sub]. rewrite Nat.sub_0_r. cbn [pow]. destruct (Nat.eqb _ _); lra.
Qed.
Definition path_len (h : heap) (i : nat) (depth : Z) : nat := match snd (get_path h i depth) with Ret p => length p | _ => 0%nat end.
Lemma half_prob_of h i depth n : path_len h i depth = S n -> prob_of half h i depth = (1 / 2) ^ n.
Proof.
  unfold prob_of, path_len. destruct (snd (get_path h i depth)) as [p| |]; try discriminate. intros H. rewrite half_prob, H. cbn [Nat.sub]. rewrite Nat.sub_0_r. reflexivity.
Qed.
Example C109_case : exists h set, huffman_tree (fold_left dict_add four_words dict_new) 2 = Ret (h, set) /\
  (path_len h 0 4 = 2 /\ path_len h 1 4 = 4 /\ path_len h 2 4 = 3 /\ path_len h 3 4 = 4)%nat /\
  rsum (map (fun i => prob_of half h i 4) (seq 0 4)) = 1 /\
  rsum (map (fun i => prob_of half h i 3) (seq 0 4)) = 5 / 4 /\ logistic 0 = half 0.
Proof.
  assert (E : match huffman_tree (fold_left dict_add four_words dict_new) 2 with
    | Ret (h, set) => (path_len h 0 4 = 2 /\ path_len h 1 4 = 4 /\ path_len h 2 4 = 3 /\ path_len h 3 4 = 4)%nat /\
                      (path_len h 0 3 = 2 /\ path_len h 1 3 = 3 /\ path_len h 2 3 = 3 /\ path_len h 3 3 = 3)%nat
    | _ => False end) by (vm_compute; auto 10).
  destruct (huffman_tree (fold_left dict_add four_words dict_new) 2) as [[h set]| |]; [|contradiction|contradiction].
  destruct E as (E4 & E3). exists h, set. split; [reflexivity|]. split; [exact E4|].
  destruct E4 as (A0 & A1 & A2 & A3). destruct E3 as (B0 & B1 & B2 & B3).
  cbn [map seq rsum fold_right].
  rewrite (half_prob_of _ _ _ _ A0), (half_prob_of _ _ _ _ A1), (half_prob_of _ _ _ _ A2), (half_prob_of _ _ _ _ A3),
    (half_prob_of _ _ _ _ B0), (half_prob_of _ _ _ _ B1), (half_prob_of _ _ _ _ B2), (half_prob_of _ _ _ _ B3).
  cbn [pow]. split; [lra|]. split; [lra|]. unfold logistic, half. rewrite Ropp_0, exp_0. lra.
Qed.
