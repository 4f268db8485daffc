(** Training with a depth limit beyond all paths. *)
From Coq Require Import Lia Permutation.
From Verif.Lib Require Import Go F64 ListFacts Tac.
From Verif.Spec Require Import Words Tokens Window Filter Tree Fibonacci Readable OptionChanges.
From Verif.Model Require Import Dictionary Reader Corpus Matrix Subsample Huffman Sigmoid Word2vec LearningRate Options Sched Train Run.
From Verif.Proofs Require Import Dictionary Corpus Huffman HuffOpt HuffPath HuffProps HuffDepth DepthSim.
From Verif.Proofs Require RunSetup RaceHSSeq.
Local Open Scope Z_scope.

Lemma fib_mono a b : (a <= b)%nat -> fib a <= fib b.
Proof. induction 1 as [|m H IH]; [lia|]. destruct m as [|k]; [cbn in *; lia|]. rewrite fib_step. pose proof (fib_nonneg k). lia. Qed.

Lemma fib_below (n k : nat) N : fib (S n) <= N -> N < fib (k + 2) -> (n <= k)%nat.
Proof. intros H1 H2. destruct (Nat.le_gt_cases n k) as [H|H]; [exact H|]. pose proof (fib_mono (k + 2) (S n) ltac:(lia)). lia. Qed.

Lemma fib_iter n : Nat.iter n (fun p : Z * Z => (snd p, fst p + snd p)) (0, 1) = (fib n, fib (S n)).
Proof.
  induction n as [|n IH]; [reflexivity|]. cbn [Nat.iter nat_rect]. unfold Nat.iter in IH. rewrite IH. cbn [fst snd]. rewrite fib_step. f_equal. lia.
Qed.
Lemma fib_at n : fib n = fst (Nat.iter n (fun p : Z * Z => (snd p, fst p + snd p)) (0, 1)).
Proof. rewrite fib_iter. reflexivity. Qed.
Lemma fib_big x : x = fst (Nat.iter 93 (fun p : Z * Z => (snd p, fst p + snd p)) (0, 1)) -> 2 ^ 63 < x.
Proof. intros ->. reflexivity. Qed.
Lemma fib_93 : 2 ^ 63 < fib 93.
Proof. exact (fib_big _ (fib_at 93)). Qed.

Lemma tree_short calls dim h set k :
  huffman_tree (fold_left dict_add calls dict_new) dim = Ret (h, set) -> Z.of_nat (length (concat calls)) < fib (k + 2) -> short k set h.
Proof.
  intros E HN n Hn. set (d := fold_left dict_add calls dict_new) in *.
  destruct (huffman_inv _ _ _ _ E) as (R & Hd & _). fold d in R, Hd.
  assert (Hlt : (n < dict_len d)%nat).
  { destruct (huffman_structure_lemma calls dim) as (_ & HP). destruct (HP Hd) as (h' & E' & _). fold d in E'. rewrite E' in E.
    assert (set = seq 0 (dict_len d)) as -> by congruence. apply in_seq in Hn. lia. }
  destruct (tree_depth calls dim h set E n Hlt) as (q & Hq & HF). fold d in Hq.
  pose proof (RaceHSSeq.fresh_tree _ _ _ _ E) as HFr.
  split.
  - destruct (full_paths calls dim h set E ltac:(fold d; lia)) as (t & HI1 & _ & _). fold d in HI1.
    destruct (inv1_ptrs _ _ _ _ _ HI1) as (Hpt & Hnd & Hlen & _).
    assert (HP : root_path (parent_of h) (rev (path_up (length h) h n)) n).
    { apply path_up_root_path; [apply (inv_up _ _ _ _ _ HI1)| |]; unfold dict_len in Hlt; lia. }
    pose proof (root_path_unique _ _ _ _ Hq HP) as EQ. rewrite <- (rev_length (path_up (length h) h n)), <- EQ. eapply fib_below; eauto.
  - intros c Hc. assert (hn_cache (hget h n) = None) as EN by (apply (RaceHSSeq.fresh_hget _ _ n HFr)). congruence.
Qed.

Section Train.
Variables (exp : f64 -> f64) (lower : gostring -> gostring) (rand : nat -> f64) (next : Z) (lr : f64) (doc : reader) (all : list gostring) (k : nat).

Lemma setup_depth o depth w0 : w2v_OptimizerType o = "hs"%string -> readable (w2v_Verbose o) (w2v_LogBatch o) doc all ->
  Z.of_nat (length all) < fib (k + 2) -> w2v_setup lower rand o doc = Ret w0 ->
  exists h set, wv_opt w0 = HS h set (w2v_MaxDepth o) /\ short k set h /\
    w2v_setup lower rand (w2v_with_unused o (w2v_BatchSize o) depth (w2v_NegativeSampleSize o)) doc =
      Ret (W2v (wv_corpus w0) (wv_param w0) (wv_samples w0) (wv_mod w0) (HS h set depth)).
Proof.
  intros HO HR HN E. pose proof (RunSetup.w2v_setup_corpus _ _ _ _ _ E) as HC.
  destruct (RunSetup.loaded_facts _ _ _ _ _ _ _ _ _ _ _ HR HC) as (HD & _).
  revert E. unfold w2v_setup. cbn [w2v_with_unused w2v_DocInMemory w2v_ToLower w2v_MaxCount w2v_MinCount w2v_Verbose w2v_LogBatch w2v_Dim w2v_SubsampleThreshold w2v_ModelType w2v_Goroutines w2v_OptimizerType w2v_MaxDepth w2v_NegativeSampleSize].
  rewrite HC, HO. cbn [obind]. cbv zeta. change (String.eqb "hs" ns_type) with false. change (String.eqb "hs" hs_type) with true. cbv iota.
  destruct (mat_new _ _ _ _) as [[kk p]| |]; cbn [obind]; try discriminate.
  destruct (subsample_new _ _) as [sm| |]; cbn [obind]; try discriminate.
  match goal with |- obind ?m _ = _ -> _ => destruct m as [md| |]; cbn [obind]; try discriminate end.
  destruct (huffman_tree _ _) as [[h set]| |] eqn:EH; cbn [obind]; try discriminate.
  intros E. injection E as <-. cbn [wv_opt wv_corpus wv_param wv_samples wv_mod]. exists h, set. split; [reflexivity|]. split; [|reflexivity].
  cbn [wv_corpus] in HD. rewrite HD in EH. apply (tree_short [lowered lower (w2v_ToLower o) all] (w2v_Dim o) h set k EH).
  cbn [concat]. rewrite app_nil_r. unfold lowered. destruct (w2v_ToLower o); [rewrite map_length|]; exact HN.
Qed.

Lemma train_depth o depth w : w2v_OptimizerType o = "hs"%string -> readable (w2v_Verbose o) (w2v_LogBatch o) doc all ->
  Z.of_nat (length all) < fib (k + 2) -> Z.of_nat k <= w2v_MaxDepth o -> Z.of_nat k <= depth ->
  w2v_trained exp lower rand next lr o doc w ->
  exists h set, wv_opt w = HS h set (w2v_MaxDepth o) /\
    w2v_trained exp lower rand next lr (w2v_with_unused o (w2v_BatchSize o) depth (w2v_NegativeSampleSize o)) doc
      (W2v (wv_corpus w) (wv_param w) (wv_samples w) (wv_mod w) (HS h set depth)).
Proof.
  intros HO HR HN H1 H2 (w0 & x & v & ES & EX & HT & ->).
  destruct (setup_depth o depth w0 HO HR HN ES) as (h & set & EO & HSh & ES').
  set (o' := w2v_with_unused o (w2v_BatchSize o) depth (w2v_NegativeSampleSize o)) in *.
  set (w0' := W2v (wv_corpus w0) (wv_param w0) (wv_samples w0) (wv_mod w0) (HS h set depth)) in *.
  set (E1 := w2v_effects (sigmoid (sig_table exp)) rand o w0) in *.
  destruct (trains_sim (w2v_cfg o) E1 (w2v_effects (sigmoid (sig_table exp)) rand o' w0') (vrel k set (w2v_MaxDepth o) depth)
    ltac:(intros y v1 w1 v2 b HV; apply trial_rel; exact HV)
    ltac:(intros dd p v1 w1 v2 HV; apply (work_rel k set (w2v_MaxDepth o) depth H1 H2); exact HV)
    ltac:(intros n v1 w1 v2 HV; apply tick_rel; exact HV)
    (Z.to_nat (w2v_Iter o)) (fun _ => x) (w2v_start next lr w0) (w2v_start next lr w0') v) as (v' & HT' & K1 & K2 & (h1 & K3 & K4 & _) & _); [|exact HT|].
  - unfold w2v_start, vrel. rewrite EO. unfold w0'. cbn [wv_next wv_m wv_o wv_lr wv_k wv_param wv_opt].
    repeat (split; [reflexivity|]). split; [exists h; auto|auto].
  - exists h1, set. cbn [wv_opt wv_corpus wv_param wv_samples wv_mod]. split; [exact K3|].
    exists w0', x, v'. split; [exact ES'|]. split; [exact EX|]. split; [exact HT'|]. unfold w0'. cbn [wv_opt wv_corpus wv_param wv_samples wv_mod]. rewrite K2, K4. reflexivity.
Qed.
End Train.
