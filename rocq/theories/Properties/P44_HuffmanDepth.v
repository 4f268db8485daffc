(** * C108: how long the Huffman paths get, and which MaxDepth makes no difference

    [fib] is the Fibonacci sequence 0, 1, 1, 2, 3, 5, ... (Spec/Fibonacci.v); [root_path] is the path
    from the root to a node (Spec/Tree.v); [readable .. doc all]: [all] are the words of the document,
    and they can be read (Spec/Readable.v). *)
From Coq Require Import Lia.
From Verif.Lib Require Import Go F64 Tac.
From Verif.Spec Require Import Words Tree Fibonacci Readable Runs Sequential OneGoroutine OptionChanges.
From Verif.Model Require Import Dictionary Reader Corpus Matrix Huffman Sigmoid Word2vec LearningRate Options Sched Train Run.
From Verif.Proofs Require HuffPath HuffProps HuffDepth DepthTrain.
From Verif.Properties Require P23_Runs P36_Schedules.
Local Open Scope Z_scope.

(** C108. For a dictionary built from N words, the path of every word, of L nodes including the root
    and the word itself, satisfies fib (L+1) <= N; so L is at most about 1.44 log2 N. *)
Theorem C108_path_length : forall calls dim h set,
  let d := fold_left dict_add calls dict_new in
  huffman_tree d dim = Ret (h, set) ->
  forall i, (i < dict_len d)%nat -> exists path,
    root_path (fun y => hn_parent (hget h y)) path i /\
    fib (S (length path)) <= Z.of_nat (length (concat calls)) /\
    2 ^ (Z.of_nat (length path) / 2) <= Z.of_nat (length (concat calls)).
Proof.
  intros calls dim h set d E i Hi. destruct (HuffDepth.tree_depth calls dim h set E i Hi) as (q & Hq & HF).
  exists q. split; [exact Hq|]. split; [exact HF|]. pose proof (HuffDepth.fib_pow (length q)). lia.
Qed.
Print Assumptions C108_path_length.

(** C108. So a depth limit of [k] cuts no path if the dictionary was built from fewer than fib (k+2)
    words: GetPath returns the whole path, whatever calls came before. *)
Theorem C108_no_cut : forall calls dim h set k,
  let d := fold_left dict_add calls dict_new in
  huffman_tree d dim = Ret (h, set) ->
  Z.of_nat (length (concat calls)) < fib (k + 2) ->
  forall i, (i < dict_len d)%nat -> exists path,
    root_path (fun y => hn_parent (hget h y)) path i /\
    forall (history : list (nat * Z)) depth, Forall (fun c => (fst c < length h)%nat) history -> Z.of_nat k <= depth ->
    snd (get_path (fold_left (fun h c => fst (get_path h (fst c) (snd c))) history h) i depth) = Ret path.
Proof.
  intros calls dim h set k d E HN i Hi. destruct (HuffDepth.tree_depth calls dim h set E i Hi) as (q & Hq & HF).
  assert (Hl : (i < length h)%nat).
  { destruct (HuffProps.huffman_inv _ _ _ _ E) as (_ & Hd & _). destruct (HuffProps.huffman_structure_lemma calls dim) as (_ & HP).
    destruct (HP Hd) as (h' & E' & HL & _). fold d in E', HL. assert (h' = h) by congruence. subst h'. lia. }
  destruct (HuffProps.get_path_lemma calls dim h set E i Hl) as (p & Hp & HG).
  exists p. split; [exact Hp|]. intros history depth HH Hk. destruct (HG history HH) as (HG' & _). rewrite HG'.
  destruct (Z.ltb_spec depth 0); [lia|]. rewrite firstn_all2; [reflexivity|].
  rewrite (HuffPath.root_path_unique _ _ _ _ Hp Hq). pose proof (DepthTrain.fib_below (length q) k _ HF HN). lia.
Qed.
Print Assumptions C108_no_cut.

(** C108. Training with hierarchical softmax on fewer than fib (k+2) words gives the same results with
    any two values of MaxDepth that are at least [k]: every model that Train with MaxDepth can return,
    Train with [depth] can return too, apart from the recorded limit. *)
Theorem C108_training : forall exp lower rand next lr o depth doc all k w,
  w2v_OptimizerType o = "hs"%string -> readable (w2v_Verbose o) (w2v_LogBatch o) doc all ->
  Z.of_nat (length all) < fib (k + 2) -> Z.of_nat k <= w2v_MaxDepth o -> Z.of_nat k <= depth ->
  w2v_trained exp lower rand next lr o doc w ->
  exists h set, wv_opt w = HS h set (w2v_MaxDepth o) /\
    w2v_trained exp lower rand next lr (w2v_with_unused o (w2v_BatchSize o) depth (w2v_NegativeSampleSize o)) doc
      (W2v (wv_corpus w) (wv_param w) (wv_samples w) (wv_mod w) (HS h set depth)).
Proof. intros. eapply DepthTrain.train_depth; eauto. Qed.
Print Assumptions C108_training.

(** C108. In particular for the default, 100, and every limit from 91 on: no text has 2^63 words. *)
Theorem C108_default : forall exp lower rand next lr cpus o depth doc all w,
  w2v_OptimizerType o = "hs"%string -> readable (w2v_Verbose o) (w2v_LogBatch o) doc all ->
  Z.of_nat (length all) < 2 ^ 63 -> w2v_MaxDepth o = w2v_MaxDepth (w2v_defaults cpus) -> 91 <= depth ->
  w2v_trained exp lower rand next lr o doc w ->
  exists h set, wv_opt w = HS h set 100 /\
    w2v_trained exp lower rand next lr (w2v_with_unused o (w2v_BatchSize o) depth (w2v_NegativeSampleSize o)) doc
      (W2v (wv_corpus w) (wv_param w) (wv_samples w) (wv_mod w) (HS h set depth)).
Proof.
  intros exp lower rand next lr cpus o depth doc all w HO HR HN HM HD HT. assert (E100 : w2v_MaxDepth (w2v_defaults cpus) = 100) by reflexivity.
  rewrite E100 in HM. rewrite <- HM. apply (C108_training exp lower rand next lr o depth doc all 91 w HO HR); try lia; [|exact HT].
  pose proof DepthTrain.fib_93 as HF. cbn [Nat.add]. lia.
Qed.
Print Assumptions C108_default.

(** The words of a text in which word number i occurs [nth i freqs] times. *)
Definition text_of (freqs : list nat) : list gostring :=
  concat (map (fun p => repeat [Byte.x61; match Byte.of_nat (97 + fst p) with Some b => b | None => Byte.x61 end] (snd p)) (combine (seq 0 (length freqs)) freqs)).
Definition deepest (freqs : list nat) (depth : Z) : list nat :=
  match huffman_tree (dict_add dict_new (text_of freqs)) 1 with
  | Ret (h, set) => map (fun i => match snd (get_path h i depth) with Ret p => length p | _ => 0%nat end) set
  | _ => []
  end.
(** With the Fibonacci numbers as frequencies the tree is as deep as it can get: n words, and a path
    of n nodes. Eight words with 54 occurrences: fib (8+1) = 34 <= 54, a limit of 8 cuts nothing although
    54 words are not fewer than fib (7+2); a limit of 7 cuts the paths of the two rarest words. The second
    text meets the bound exactly: 5 = fib (4+1) words and a path of 4 nodes. *)
Example C108_case :
  deepest [1; 1; 2; 3; 5; 8; 13; 21]%nat 100 = [8; 8; 7; 6; 5; 4; 3; 2]%nat /\
  deepest [1; 1; 2; 3; 5; 8; 13; 21]%nat 8 = [8; 8; 7; 6; 5; 4; 3; 2]%nat /\
  deepest [1; 1; 2; 3; 5; 8; 13; 21]%nat 7 = [7; 7; 7; 6; 5; 4; 3; 2]%nat /\
  fib 9 = 34 /\ fib 5 = 5 /\
  deepest [2; 1; 1; 1]%nat 100 = [2; 4; 4; 3]%nat.
Proof. vm_compute. repeat split; reflexivity. Qed.

(** Training on "a b a b" with hierarchical softmax and the default MaxDepth does return, so it can return
    the same with MaxDepth 3: 4 words are fewer than fib (3+2) = 5. *)
Example C108_train_case :
  let id := fun w : gostring => w in let rand := fun _ : nat => fzero in let exp := fun _ : f64 => f_of_Z 1 in
  let o := w2v_new 1 [W_Dim 1; W_MinCount 0; W_DocInMemory; W_Iter 1; W_Optimizer "hs"; W_Window 1; W_Model "skipgram"] in
  w2v_OptimizerType o = "hs"%string /\ w2v_MaxDepth o = w2v_MaxDepth (w2v_defaults 1) /\
  readable (w2v_Verbose o) (w2v_LogBatch o) P36_Schedules.abab P36_Schedules.abab_words /\
  Z.of_nat (length P36_Schedules.abab_words) < fib (3 + 2) /\
  exists w w', w2v_trained exp id rand 1 (w2v_Initlr o) o P36_Schedules.abab w /\
    w2v_trained exp id rand 1 (w2v_Initlr o) (w2v_with_unused o (w2v_BatchSize o) 3 (w2v_NegativeSampleSize o)) P36_Schedules.abab w' /\
    wv_param w' = wv_param w.
Proof.
  intros id rand exp o.
  assert (HU : w2v_usable id o P36_Schedules.abab P36_Schedules.abab_words).
  { constructor; cbn -[Z.mul Z.pow]; auto using P36_Schedules.abab_readable; try lia; try tauto; vm_compute; (reflexivity || discriminate). }
  split; [reflexivity|]. split; [reflexivity|]. split; [exact (wu_text _ _ _ _ HU)|]. split; [reflexivity|].
  assert (EB : match w2v_setup id rand o P36_Schedules.abab with
    | Ret w0 => match passes (w2v_trial rand (wv_samples w0)) (w2v_step (sigmoid (sig_table exp)) (wv_mod w0) (w2v_Window o) (w2v_Dim o)) (Z.to_nat (w2v_Iter o))
        (id_text id (w2v_ToLower o) (w2v_MaxCount o) (w2v_MinCount o) (c_dic (wv_corpus w0)) P36_Schedules.abab_words) (w2v_start 1 (w2v_Initlr o) w0) with Ret _ => true | _ => false end
    | _ => false end = true) by (vm_compute; reflexivity).
  destruct (w2v_setup id rand o P36_Schedules.abab) as [w0| |] eqn:ES; try discriminate EB.
  pose proof (P23_Runs.C80_word2vec_one_goroutine exp id rand o _ _ 1 (w2v_Initlr o) w0 HU eq_refl eq_refl ltac:(reflexivity) ES) as HT.
  destruct (passes _ _ _ _ _) as [v| |]; try discriminate EB.
  pose proof (proj2 (HT _) eq_refl) as HW. set (w := W2v _ _ _ _ _) in HW.
  destruct (C108_training exp id rand 1 (w2v_Initlr o) o 3 P36_Schedules.abab P36_Schedules.abab_words 3 w eq_refl (wu_text _ _ _ _ HU)) as (h & set & _ & HW'); try exact HW; try reflexivity; try (cbn -[Z.mul Z.pow]; lia).
  exists w. eexists. split; [exact HW|]. split; [exact HW'|]. reflexivity.
Qed.
