(** * C110: how many nodes hierarchical softmax visits on average

    [information freqs] is the total number of words times the entropy, in bits, of their distribution
    (Spec/Entropy.v). *)
From Coq Require Import Lia Lra Reals Permutation.
From Verif.Lib Require Import Go F64.
From Verif.Spec Require Import Words Tree Likelihood Entropy.
From Verif.Model Require Import Dictionary Huffman.
From Verif.Proofs Require Dictionary HuffPath HuffProps HuffDepth Likelihood Entropy.
From Verif.Properties Require P06_Huffman P45_Likelihood.
Local Open Scope R_scope.

(** C110. Training each of the N words of the text once visits, in total, at least [information] inner
    nodes, fewer than [information] + N, and at most N times the logarithm of the number of words. *)
Theorem C110_average_path : forall calls dim h set,
  let d := fold_left dict_add calls dict_new in let N := length (concat calls) in
  huffman_tree d dim = Ret (h, set) -> (1 <= dict_len d)%nat ->
  exists (freq : nat -> nat) (path : nat -> list nat),
  (forall i, (i < dict_len d)%nat -> dict_id_freq d (Z.of_nat i) = Ret (freq i) /\
     forall depth, (Z.of_nat (length h) <= depth)%Z -> snd (get_path h i depth) = Ret (path i)) /\
  list_sum (map freq (seq 0 (dict_len d))) = N /\
  let visits := list_sum (map (fun i => freq i * (length (path i) - 1))%nat (seq 0 (dict_len d))) in
  information (map freq (seq 0 (dict_len d))) <= INR visits < information (map freq (seq 0 (dict_len d))) + INR N /\
  (visits <= N * Nat.log2_up (dict_len d))%nat.
Proof.
  intros calls dim h set d N E Hn. destruct (P06_Huffman.C19_huffman_optimal calls dim h set E Hn) as (freq & path & HP & HO). fold d in HP, HO.
  destruct (HuffProps.huffman_inv _ _ _ _ E) as (R & _). fold d in R.
  assert (EF : forall i, (i < dict_len d)%nat -> freq i = HuffPath.freq_of d i).
  { intros i Hi. destruct (HP i Hi) as (H & _). rewrite (HuffProps.freq_of_spec _ _ i R) in H. congruence. }
  assert (HF : forall i, In i (seq 0 (dict_len d)) -> (1 <= freq i)%nat).
  { intros i Hi. apply in_seq in Hi. rewrite EF by lia. eapply HuffDepth.count_pos; [exact R|lia]. }
  assert (HS : list_sum (map freq (seq 0 (dict_len d))) = N).
  { transitivity (list_sum (map (HuffPath.freq_of d) (seq 0 (dict_len d)))); [|exact (HuffProps.freq_total _ _ R)].
    f_equal. apply map_ext_in. intros i Hi. apply in_seq in Hi. apply EF. lia. }
  assert (Hne : seq 0 (dict_len d) <> []) by (destruct (dict_len d); [lia|discriminate]).
  exists freq, path. split; [exact HP|]. split; [exact HS|]. cbv zeta. split; [split|].
  - apply (Entropy.coding_lower (seq 0 (dict_len d)) freq (fun i => length (path i) - 1)%nat HF). right.
    etransitivity; [|apply (P45_Likelihood.C109_distribution calls dim h set (fun _ => 1 / 2) (Z.of_nat (length h)) E Hn); [lia|]].
    + fold d. f_equal. apply map_ext_in. intros i Hi. apply in_seq in Hi. destruct (HP i ltac:(lia)) as (_ & HG). unfold prob_of. rewrite HG by lia.
      symmetry. apply (P45_Likelihood.half_prob (fun y => hn_code (hget h y)) (path i)).
    + intros i p Hi Hp. destruct (HuffProps.full_paths calls dim h set E Hn) as (t & HI & _ & HFP). fold d in HI, HFP.
      destruct (HuffProps.inv1_ptrs _ _ _ _ _ HI) as (_ & _ & _ & _ & _ & HR & Hroot & _). destruct (HFP i Hi) as (q & c & Hq & Hl & _).
      rewrite (HuffPath.root_path_unique _ _ _ _ Hp (HuffPath.inpath_root_path _ _ _ _ _ _ _ _ Hq HR Hroot)). lia.
  - destruct (Entropy.coding_upper (seq 0 (dict_len d)) freq HF Hne) as (t & Ht & HC). rewrite HS in HC.
    apply Rle_lt_trans with (2 := HC). apply le_INR, HO, Ht.
  - destruct (Entropy.balanced (seq 0 (dict_len d)) freq HF Hne) as (t & Ht & HC). rewrite HS, seq_length in HC. etransitivity; [apply HO, Ht|exact HC].
Qed.
Print Assumptions C110_average_path.

(** Frequencies 4, 1, 2, 1 (P45): entropy 14/8 bits, and 14 inner nodes visited for the 8 words: the bound is met. *)
Example C110_case :
  exists h set, huffman_tree (fold_left dict_add P45_Likelihood.four_words dict_new) 2 = Ret (h, set) /\
  (4 * (P45_Likelihood.path_len h 0 7 - 1) + 1 * (P45_Likelihood.path_len h 1 7 - 1) + 2 * (P45_Likelihood.path_len h 2 7 - 1) + 1 * (P45_Likelihood.path_len h 3 7 - 1) = 14)%nat /\
  information [4; 1; 2; 1]%nat = 14.
Proof.
  assert (E : match huffman_tree (fold_left dict_add P45_Likelihood.four_words dict_new) 2 with
    | Ret (h, set) => (4 * (P45_Likelihood.path_len h 0 7 - 1) + 1 * (P45_Likelihood.path_len h 1 7 - 1) + 2 * (P45_Likelihood.path_len h 2 7 - 1) + 1 * (P45_Likelihood.path_len h 3 7 - 1) = 14)%nat
    | _ => False end) by (vm_compute; reflexivity).
  destruct (huffman_tree (fold_left dict_add P45_Likelihood.four_words dict_new) 2) as [[h set]| |]; [|contradiction|contradiction].
  exists h, set. split; [reflexivity|]. split; [exact E|]. clear.
  unfold information, rsum. cbn [list_sum fold_right map]. cbn [Nat.add].
  replace (INR 8 / INR 4) with (INR (2 ^ 1)) by (cbn; lra). replace (INR 8 / INR 1) with (INR (2 ^ 3)) by (cbn; lra).
  replace (INR 8 / INR 2) with (INR (2 ^ 2)) by (cbn; lra). rewrite !Entropy.log2_pow2. cbn. lra.
Qed.
