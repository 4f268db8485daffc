(** * C92: file-backed training of a text that fits in one batch

    Names as in P23_Runs: [rand], [lower], [exp], [flog], [fpow], [order], [next] and [lr] are
    arbitrary, and [w2v_trained ... w] says that some schedule of the goroutines makes Train return
    with [w]. *)
From Coq Require Import Lia Sorting.Permutation.
From Verif.Lib Require Import Go F64.
From Verif.Spec Require Import Words Tokens Filter Readable Runs Sequential OneGoroutine.
From Verif.Model Require Import Dictionary Reader Corpus Matrix Subsample Sigmoid Word2vec Lexvec Options Train Sched Run.
From Verif.Proofs Require RunOne RunFile.
From Verif.Properties Require Import P23_Runs.
Local Open Scope Z_scope.

(** C92. word2vec, file-backed, the text shorter than BatchSize and UpdateLRBatch: whatever Goroutines
    is, every schedule does Iter passes over the text from left to right. *)
Theorem C92_word2vec_sequential : forall exp lower rand o doc all next lr w0,
  w2v_usable lower o doc all -> w2v_DocInMemory o = false ->
  Z.of_nat (length all) < w2v_BatchSize o -> Z.of_nat (length all) < w2v_UpdateLRBatch o ->
  w2v_setup lower rand o doc = Ret w0 ->
  match passes (w2v_trial rand (wv_samples w0)) (w2v_step (sigmoid (sig_table exp)) (wv_mod w0) (w2v_Window o) (w2v_Dim o)) (Z.to_nat (w2v_Iter o))
    (id_text lower (w2v_ToLower o) (w2v_MaxCount o) (w2v_MinCount o) (c_dic (wv_corpus w0)) all) (w2v_start next lr w0) with
  | Ret v => forall w, w2v_trained exp lower rand next lr o doc w <-> w = W2v (wv_corpus w0) (wv_m v) (wv_samples w0) (wv_mod w0) (wv_o v)
  | Err _ => False
  | Panic => forall w, ~ w2v_trained exp lower rand next lr o doc w
  end.
Proof. intros exp lower rand o doc all next lr w0 HU HM HB HL HS. eapply RunOne.w2v_sequential; eauto. rewrite HM. exact HB. Qed.
Print Assumptions C92_word2vec_sequential.

(** C92. Hence Goroutines has no effect on the result. *)
Theorem C92_word2vec_goroutines : forall exp lower rand o doc all next lr g,
  w2v_usable lower o doc all -> w2v_DocInMemory o = false ->
  Z.of_nat (length all) < w2v_BatchSize o -> Z.of_nat (length all) < w2v_UpdateLRBatch o -> 1 <= g ->
  forall w, w2v_trained exp lower rand next lr (w2v_apply (W_Goroutines g) o) doc w <-> w2v_trained exp lower rand next lr o doc w.
Proof. exact RunFile.w2v_goroutines. Qed.
Print Assumptions C92_word2vec_goroutines.

(** C92. And the result is that of in-memory training with one goroutine: the same dictionary,
    parameters, subsampling table and optimizer; if one cannot return, neither can the other. *)
Theorem C92_word2vec_in_memory : forall exp lower rand o doc all next lr,
  w2v_usable lower o doc all -> w2v_DocInMemory o = false ->
  Z.of_nat (length all) < w2v_BatchSize o -> Z.of_nat (length all) < w2v_UpdateLRBatch o -> Z.of_nat (length all) + 1 <= 2 ^ 53 ->
  let in_memory := w2v_apply W_DocInMemory (w2v_apply (W_Goroutines 1) o) in
  exists cf cm, c_dic cf = c_dic cm /\ forall w, w2v_trained exp lower rand next lr o doc w <->
    exists p s m op, w = W2v cf p s m op /\ w2v_trained exp lower rand next lr in_memory doc (W2v cm p s m op).
Proof. exact RunFile.w2v_same. Qed.
Print Assumptions C92_word2vec_in_memory.

(** C92. LexVec likewise. *)
Theorem C92_lexvec_sequential : forall lower rand flog fpow order o doc all next lr l0, (forall m, Permutation (order m) m) ->
  lxv_usable lower o doc all -> lex_DocInMemory o = false ->
  Z.of_nat (length all) < lex_BatchSize o -> Z.of_nat (length all) < lex_UpdateLRBatch o ->
  lxv_setup lower rand flog fpow order o doc = Ret l0 ->
  let d := c_dic (lx_corpus l0) in
  exists v,
    passes (lxv_trial rand (lx_samples l0)) (lxv_step o (lx_items l0) (Z.of_nat (dict_len d))) (Z.to_nat (lex_Iter o))
      (id_text lower (lex_ToLower o) (lex_MaxCount o) (lex_MinCount o) d all) (lxv_start next lr l0) = Ret v /\
    forall l, lxv_trained lower rand flog fpow order next lr o doc l <-> l = Lxv (lx_corpus l0) (lv_m v) (lx_samples l0) (lx_items l0).
Proof. intros lower rand flog fpow order o doc all next lr l0 HP HU HM HB HL HS. eapply RunOne.lxv_sequential; eauto. rewrite HM. exact HB. Qed.
Print Assumptions C92_lexvec_sequential.

Theorem C92_lexvec_goroutines : forall lower rand flog fpow order o doc all next lr g, (forall m, Permutation (order m) m) ->
  lxv_usable lower o doc all -> lex_DocInMemory o = false ->
  Z.of_nat (length all) < lex_BatchSize o -> Z.of_nat (length all) < lex_UpdateLRBatch o -> 1 <= g ->
  forall l, lxv_trained lower rand flog fpow order next lr (lex_apply (L_Goroutines g) o) doc l <-> lxv_trained lower rand flog fpow order next lr o doc l.
Proof. exact RunFile.lxv_goroutines. Qed.
Print Assumptions C92_lexvec_goroutines.

(** For LexVec the comparison with in-memory training needs the cases in which the two corpora count
    the same pairs (C11): a window of at most two words, more words than the window, no ToLower. *)
Theorem C92_lexvec_in_memory : forall lower rand flog fpow order o doc all next lr, (forall m, Permutation (order m) m) ->
  lxv_usable lower o doc all -> lex_DocInMemory o = false ->
  Z.of_nat (length all) < lex_BatchSize o -> Z.of_nat (length all) < lex_UpdateLRBatch o -> Z.of_nat (length all) + 1 <= 2 ^ 53 ->
  lex_ToLower o = false -> lex_Window o <= 2 -> lex_Window o < Z.of_nat (length all) ->
  let in_memory := lex_apply L_DocInMemory (lex_apply (L_Goroutines 1) o) in
  exists cf cm, c_dic cf = c_dic cm /\ forall l, lxv_trained lower rand flog fpow order next lr o doc l <->
    exists p s it, l = Lxv cf p s it /\ lxv_trained lower rand flog fpow order next lr in_memory doc (Lxv cm p s it).
Proof. exact RunFile.lxv_same. Qed.
Print Assumptions C92_lexvec_in_memory.

(** The hypotheses for the text a b a: the default options on four processors (file-backed, BatchSize
    10000, UpdateLRBatch 100000), with MinCount 0, and Window 1 for LexVec. *)
Example C92_case :
  let o := w2v_new 4 [W_Dim 2; W_MinCount 0] in let o' := lex_new 4 [L_Dim 2; L_MinCount 0; L_Window 1] in
  (w2v_usable ascii_lower o aba aba_words /\ w2v_DocInMemory o = false /\
   Z.of_nat (length aba_words) < w2v_BatchSize o /\ Z.of_nat (length aba_words) < w2v_UpdateLRBatch o) /\
  (lxv_usable ascii_lower o' aba aba_words /\ lex_DocInMemory o' = false /\
   Z.of_nat (length aba_words) < lex_BatchSize o' /\ Z.of_nat (length aba_words) < lex_UpdateLRBatch o' /\
   lex_ToLower o' = false /\ lex_Window o' <= 2 /\ lex_Window o' < Z.of_nat (length aba_words)).
Proof.
  intros o o'. split; repeat (split; [|]); try reflexivity; try (cbn -[Z.mul Z.pow]; lia).
  - constructor; cbn -[Z.mul Z.pow]; auto using aba_readable; try lia; try tauto; vm_compute; (reflexivity || discriminate).
  - constructor; cbn -[Z.mul Z.pow]; auto using aba_readable; try lia; try tauto; vm_compute; (reflexivity || discriminate).
Qed.
