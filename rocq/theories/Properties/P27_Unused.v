(** * C87, C88: options that do not change the result

    [glv_with_unused o ..] etc. is [o] with other values in the named fields only
    (Spec/OptionChanges.v). [*_trained .. o doc w]: a call of Train with options [o] on the document
    [doc] can return with the model [w] (under some schedule). *)
From Coq Require Import Lia Sorting.Permutation.
From Verif.Lib Require Import Go F64.
From Verif.Spec Require Import Words Filter Rows Readable Runs OptionChanges.
From Verif.Model Require Import Dictionary Reader Corpus Matrix Sigmoid Word2vec Glove Lexvec Options Train Vector Sched Run.
From Verif.Proofs Require OptionChanges.
From Verif.Properties Require P23_Runs.
Local Open Scope Z_scope.

(** C87. GloVe has the options MaxCount, MinCount, SubsampleThreshold and BatchSize, but ignores them:
    Train fails, succeeds and gives the same results whatever they are, and so does WordVector. *)
Theorem C87_glove : forall lower rand flog fpow order o maxc minc batch threshold doc,
  let o' := glv_with_unused o maxc minc batch threshold in
  glv_setup lower rand flog fpow order o' doc = glv_setup lower rand flog fpow order o doc /\
  (forall g, glv_trained lower rand flog fpow order o' doc g <-> glv_trained lower rand flog fpow order o doc g) /\
  (forall g typ, glv_word_vector o' g typ = glv_word_vector o g typ).
Proof.
  intros. split; [apply OptionChanges.glv_setup_unused|]. split; [|reflexivity].
  intros g. unfold glv_trained. subst o'. rewrite OptionChanges.glv_setup_unused. reflexivity.
Qed.
Print Assumptions C87_glove.

(** C87. word2vec ignores BatchSize when the document is in memory, MaxDepth with negative sampling and
    NegativeSampleSize with hierarchical softmax. *)
Theorem C87_word2vec : forall exp lower rand next lr o batch depth negatives doc,
  batch = w2v_BatchSize o \/ w2v_DocInMemory o = true ->
  depth = w2v_MaxDepth o \/ w2v_OptimizerType o = "ns"%string ->
  negatives = w2v_NegativeSampleSize o \/ w2v_OptimizerType o = "hs"%string ->
  let o' := w2v_with_unused o batch depth negatives in
  w2v_setup lower rand o' doc = w2v_setup lower rand o doc /\
  (forall w, w2v_trained exp lower rand next lr o' doc w <-> w2v_trained exp lower rand next lr o doc w) /\
  (forall w typ, w2v_word_vector o' w typ = w2v_word_vector o w typ).
Proof.
  intros exp lower rand next lr o batch depth negatives doc HB HD HN o'.
  assert (ES : w2v_setup lower rand o' doc = w2v_setup lower rand o doc).
  { unfold w2v_setup. subst o'. cbn [w2v_with_unused w2v_DocInMemory w2v_ToLower w2v_MaxCount w2v_MinCount w2v_Verbose w2v_LogBatch w2v_Dim w2v_SubsampleThreshold w2v_ModelType w2v_Goroutines w2v_OptimizerType w2v_MaxDepth w2v_NegativeSampleSize].
    destruct HD as [->|HD], HN as [->|HN].
    - reflexivity.
    - rewrite HN. reflexivity.
    - rewrite HD. reflexivity.
    - rewrite HN in HD. discriminate HD. }
  split; [exact ES|]. split; [|reflexivity].
  intros w. unfold w2v_trained. rewrite ES.
  assert (EX : forall w0, w2v_source lower o' w0 = w2v_source lower o w0).
  { intros w0. subst o'. unfold w2v_source, doc_source. cbn [w2v_with_unused w2v_DocInMemory w2v_Goroutines w2v_BatchSize].
    destruct HB as [->|HB]; [reflexivity|]. rewrite HB. reflexivity. }
  split; intros (w0 & x & v & A & B & C); exists w0, x, v; (split; [exact A|]); split; try exact C; [rewrite <- EX|rewrite EX]; exact B.
Qed.
Print Assumptions C87_word2vec.

(** C87. LexVec ignores BatchSize when the document is in memory, unless it reports its progress: then
    Load divides by BatchSize. *)
Theorem C87_lexvec : forall lower rand flog fpow order next lr o batch doc, lex_DocInMemory o = true ->
  lex_Verbose o = false \/ lex_BatchSize o <> 0 /\ batch <> 0 ->
  let o' := lex_with_batch o batch in
  lxv_setup lower rand flog fpow order o' doc = lxv_setup lower rand flog fpow order o doc /\
  (forall l, lxv_trained lower rand flog fpow order next lr o' doc l <-> lxv_trained lower rand flog fpow order next lr o doc l) /\
  (forall l typ, lxv_word_vector o' l typ = lxv_word_vector o l typ).
Proof.
  intros lower rand flog fpow order next lr o batch doc HM HB o'.
  assert (ES : lxv_setup lower rand flog fpow order o' doc = lxv_setup lower rand flog fpow order o doc).
  { unfold lxv_setup. subst o'. cbn [lex_with_batch lex_DocInMemory lex_ToLower lex_MaxCount lex_MinCount lex_Verbose lex_LogBatch lex_BatchSize lex_Window lex_Dim lex_SubsampleThreshold lex_RelationType lex_Smooth].
    rewrite (OptionChanges.load_corpus_log lower _ _ _ _ (lex_Verbose o) batch (lex_Verbose o) (lex_BatchSize o)) by tauto. reflexivity. }
  split; [exact ES|]. split; [|reflexivity]. intros l. unfold lxv_trained. rewrite ES.
  assert (EX : forall l0, lxv_source lower o' l0 = lxv_source lower o l0).
  { intros l0. subst o'. unfold lxv_source, doc_source. cbn [lex_with_batch lex_DocInMemory lex_Goroutines lex_BatchSize]. rewrite HM. reflexivity. }
  split; intros (l0 & x & v & A & B & C); exists l0, x, v; (split; [exact A|]); split; try exact C; [rewrite <- EX|rewrite EX]; exact B.
Qed.
Print Assumptions C87_lexvec.

(** C88. Reporting progress changes nothing, unless the number of steps between two reports is 0:
    Train, WordVector and Save give the same for all values of Verbose and LogBatch. *)
Theorem C88_word2vec : forall exp lower rand next lr o verbose log_batch doc,
  w2v_Verbose o = false \/ w2v_LogBatch o <> 0 -> verbose = false \/ log_batch <> 0 ->
  let o' := w2v_with_log o verbose log_batch in
  w2v_setup lower rand o' doc = w2v_setup lower rand o doc /\
  (forall w, w2v_trained exp lower rand next lr o' doc w <-> w2v_trained exp lower rand next lr o doc w) /\
  (forall w typ, w2v_word_vector o' w typ = w2v_word_vector o w typ).
Proof.
  intros exp lower rand next lr o verbose log_batch doc H H' o'. subst o'.
  split; [apply OptionChanges.w2v_setup_log; assumption|]. split; [|reflexivity].
  intros w. unfold w2v_trained. rewrite (OptionChanges.w2v_setup_log verbose log_batch H') by assumption.
  split; intros (w0 & x & v & A & B & C & D); exists w0, x, v; (split; [exact A|]); (split; [exact B|]); (split; [|exact D]);
    [rewrite <- (OptionChanges.w2v_effects_log verbose log_batch H') by assumption|rewrite (OptionChanges.w2v_effects_log verbose log_batch H') by assumption]; exact C.
Qed.
Print Assumptions C88_word2vec.

Theorem C88_glove : forall lower rand flog fpow order o verbose log_batch doc,
  glv_Verbose o = false \/ glv_LogBatch o <> 0 -> verbose = false \/ log_batch <> 0 ->
  let o' := glv_with_log o verbose log_batch in
  glv_setup lower rand flog fpow order o' doc = glv_setup lower rand flog fpow order o doc /\
  (forall g, glv_trained lower rand flog fpow order o' doc g <-> glv_trained lower rand flog fpow order o doc g) /\
  (forall g typ, glv_word_vector o' g typ = glv_word_vector o g typ).
Proof.
  intros lower rand flog fpow order o verbose log_batch doc H H' o'. subst o'.
  split; [apply OptionChanges.glv_setup_log; assumption|]. split; [|reflexivity].
  intros w. unfold glv_trained. rewrite (OptionChanges.glv_setup_log verbose log_batch H') by assumption.
  split; intros (w0 & x & m & sol & A & B & C & D); exists w0, x, m, sol; (split; [exact A|]); (split; [exact B|]); (split; [|exact D]);
    [rewrite <- (OptionChanges.glv_effects_log verbose log_batch H') by assumption|rewrite (OptionChanges.glv_effects_log verbose log_batch H') by assumption]; exact C.
Qed.
Print Assumptions C88_glove.

(** LexVec's Load reports per BatchSize, so a verbose LexVec also needs BatchSize not to be 0. *)
Theorem C88_lexvec : forall lower rand flog fpow order next lr o verbose log_batch doc,
  lex_Verbose o = false \/ lex_LogBatch o <> 0 -> verbose = false \/ log_batch <> 0 ->
  verbose || lex_Verbose o = false \/ lex_BatchSize o <> 0 ->
  let o' := lex_with_log o verbose log_batch in
  lxv_setup lower rand flog fpow order o' doc = lxv_setup lower rand flog fpow order o doc /\
  (forall l, lxv_trained lower rand flog fpow order next lr o' doc l <-> lxv_trained lower rand flog fpow order next lr o doc l) /\
  (forall l typ, lxv_word_vector o' l typ = lxv_word_vector o l typ).
Proof.
  intros lower rand flog fpow order next lr o verbose log_batch doc H H' HB o'. subst o'.
  split; [apply OptionChanges.lxv_setup_log; assumption|]. split; [|reflexivity].
  intros l. unfold lxv_trained. rewrite (OptionChanges.lxv_setup_log verbose log_batch H') by assumption.
  split; intros (l0 & x & v & A & B & C & D); exists l0, x, v; (split; [exact A|]); (split; [exact B|]); (split; [|exact D]);
    [rewrite <- (OptionChanges.lxv_effects_log verbose log_batch H') by assumption|rewrite (OptionChanges.lxv_effects_log verbose log_batch H') by assumption]; exact C.
Qed.
Print Assumptions C88_lexvec.

Theorem C88_save : forall (W : Type) (wr : writer W) cut d m verbose log_batch verbose' log_batch' st,
  verbose = false \/ log_batch <> 0 -> verbose' = false \/ log_batch' <> 0 ->
  save wr cut d m verbose log_batch st = save wr cut d m verbose' log_batch' st.
Proof. intros. apply OptionChanges.save_log; assumption. Qed.
Print Assumptions C88_save.

(** (With Verbose and LogBatch 0 even Save panics: C50_log_zero.) *)

(** The text a b a: with MinCount 2 instead of 0, GloVe still has items for the pairs of a and b;
    word2vec, which does not ignore MinCount, gets a different document. The options of C88 differ. *)
Example C87_case :
  let id := fun w : gostring => w in let rand := fun _ : nat => f_dec 25 2 in
  let go := glv_new 2 [G_Dim 2; G_MinCount 0] in let go' := glv_with_unused go (-1) 2 10 fzero in
  go <> go' /\ glv_MinCount go' = 2 /\
  match glv_setup id rand (fun x => x) (fun x _ => x) (fun m => m) go' P23_Runs.aba with
  | Ret g => length (gl_items g) | _ => O end = 2%nat /\
  let wo := w2v_new 2 [W_Dim 2; W_MinCount 0; W_DocInMemory] in let wo2 := w2v_new 2 [W_Dim 2; W_MinCount 2; W_DocInMemory] in
  match w2v_setup id rand wo P23_Runs.aba with Ret w => mem_indexed_doc (wv_corpus w) | _ => Panic end = Ret [0; 1; 0]%nat /\
  match w2v_setup id rand wo2 P23_Runs.aba with Ret w => mem_indexed_doc (wv_corpus w) | _ => Panic end = Ret [0; 0]%nat.
Proof.
  intros id rand go go'. split; [intros E; apply (f_equal glv_MinCount) in E; cbn in E; discriminate E|].
  split; [reflexivity|]. split; [vm_compute; reflexivity|]. intros wo wo2. split; vm_compute; reflexivity.
Qed.

Example C88_case :
  let id := fun w : gostring => w in let rand := fun _ : nat => f_dec 25 2 in
  let o := lex_new 2 [L_Dim 2; L_MinCount 0; L_DocInMemory; L_Relation "co"] in
  (lex_Verbose o = false \/ lex_LogBatch o <> 0) /\ (true = false \/ 1 <> 0) /\ (true || lex_Verbose o = false \/ lex_BatchSize o <> 0) /\
  lex_with_log o true 1 <> o /\
  match lxv_setup id rand (fun x => x) (fun x _ => x) (fun m => m) (lex_with_log o true 1) P23_Runs.aba with
  | Ret l => length (lx_items l) | _ => O end = 2%nat.
Proof.
  intros id rand o. split; [left; reflexivity|]. split; [right; lia|]. split; [right; discriminate|].
  split; [intros E; apply (f_equal lex_Verbose) in E; cbn in E; discriminate E|]. vm_compute. reflexivity.
Qed.
