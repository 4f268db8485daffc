(** * C42, C46, C74, C75: Train until the workers start

    [rand k] is the k-th rand.Float64(), [lower] is strings.ToLower, [flog] and [fpow] are math.Log
    and math.Pow, [order] the iteration order of Go maps: all arbitrary. [run] is everything Train
    does after the set-up. *)
From Coq Require Import Lia Reals Sorting.Permutation.
From Verif.Lib Require Import Go F64 F64Facts.
From Verif.Spec Require Import Words Tokens Window Rows Readable.
From Verif.Model Require Import Dictionary Encode Cooc Reader Corpus Matrix Subsample Huffman Word2vec Glove Lexvec Options Train.
From Verif.Proofs Require Dictionary Cooc Corpus Items LexItems AdaGrad Train TrainProps.
Local Open Scope Z_scope.

(** C42. word2vec: an unknown model type, or an unknown optimizer, is an error and nothing runs. *)
Theorem C42_word2vec_unknown_model : forall lower rand o doc all,
  readable (w2v_Verbose o) (w2v_LogBatch o) doc all -> 0 <= w2v_Dim o ->
  ~ In (w2v_ModelType o) ["skipgram"; "cbow"]%string ->
  exists e, forall run, w2v_train lower rand run o doc = Err e.
Proof. exact TrainProps.w2v_unknown_model. Qed.
Print Assumptions C42_word2vec_unknown_model.

Theorem C42_word2vec_unknown_optimizer : forall lower rand o doc all,
  readable (w2v_Verbose o) (w2v_LogBatch o) doc all -> 0 <= w2v_Dim o -> 0 <= w2v_Goroutines o ->
  ~ In (w2v_OptimizerType o) ["ns"; "hs"]%string ->
  exists e, forall run, w2v_train lower rand run o doc = Err e.
Proof. exact TrainProps.w2v_unknown_optimizer. Qed.
Print Assumptions C42_word2vec_unknown_optimizer.

(** C42. With known names the workers start, with one parameter row of Dim components per distinct
    word, one subsampling value per word, and the optimizer's own rows or tree. *)
Theorem C42_word2vec_starts : forall lower rand o doc all,
  readable (w2v_Verbose o) (w2v_LogBatch o) doc all -> 0 <= w2v_Dim o -> 0 <= w2v_Goroutines o ->
  In (w2v_ModelType o) ["skipgram"; "cbow"]%string -> In (w2v_OptimizerType o) ["ns"; "hs"]%string ->
  let lw := used_words lower (w2v_ToLower o) all in
  let V := length (distinct lw) in let dim := Z.to_nat (w2v_Dim o) in
  exists c rows samples opt,
    (forall run, w2v_train lower rand run o doc =
       run (W2v c (of_rows dim rows) samples (if String.eqb (w2v_ModelType o) "cbow" then Cbow else SkipGram) opt)) /\
    c_dic c = dict_add dict_new lw /\ c_len c = length all /\
    length rows = V /\ all_len dim rows /\ length samples = V /\
    match opt with
    | NS ctx n => w2v_OptimizerType o = "ns"%string /\ n = w2v_NegativeSampleSize o /\
        exists crows, ctx = of_rows dim crows /\ length crows = V /\ all_len dim crows
    | HS h leaves depth => w2v_OptimizerType o = "hs"%string /\ depth = w2v_MaxDepth o /\
        leaves = seq 0 V /\ huffman_tree (dict_add dict_new lw) (w2v_Dim o) = Ret (h, leaves)
    end.
Proof. exact TrainProps.w2v_starts. Qed.
Print Assumptions C42_word2vec_starts.

(** C42. glove: an unknown count type or solver is an error. *)
Theorem C42_glove_unknown : forall lower rand flog fpow order o doc all,
  readable (glv_Verbose o) (glv_LogBatch o) doc all -> 0 <= glv_Dim o ->
  glv_DocInMemory o = true \/ 1 <= glv_Window o ->
  ~ In (glv_CountType o) ["inc"; "prox"]%string \/ ~ In (glv_SolverType o) ["sgd"; "adagrad"]%string ->
  exists e, forall run, glv_train lower rand flog fpow order run o doc = Err e.
Proof. exact TrainProps.glv_unknown. Qed.
Print Assumptions C42_glove_unknown.

(** C42. lexvec: an unknown relation is an error exactly when some pair of words co-occurs: always in
    file-backed mode; in memory when the text has two words and the window is at least 1. *)
Theorem C42_lexvec_unknown : forall lower rand flog fpow order o doc all,
  readable (lex_Verbose o) (lex_BatchSize o) doc all -> 0 <= lex_Dim o ->
  lex_DocInMemory o = true \/ 1 <= lex_Window o -> (forall m, Permutation (order m) m) ->
  ~ In (lex_RelationType o) ["ppmi"; "pmi"; "co"; "logco"]%string ->
  if lex_DocInMemory o && ((lex_Window o <? 1) || (length all <? 2)%nat)
  then exists s, forall run, lxv_train lower rand flog fpow order run o doc = run s
  else exists e, forall run, lxv_train lower rand flog fpow order run o doc = Err e.
Proof. exact TrainProps.lxv_unknown. Qed.
Print Assumptions C42_lexvec_unknown.

Definition doc_of (s : string) : reader := {| rd_data := bs s; rd_pos := 0; rd_err := false |}.
Example C42_case :
  let id := fun w : gostring => w in
  let o := w2v_new 2 [W_Dim 3; W_Model "x"] in
  let o' := w2v_new 2 [W_Dim 3; W_Model "cbow"; W_Optimizer "hs"] in
  let rand := fun _ : nat => fzero in
  match w2v_train id rand (fun s => Ret s) o (doc_of "a b a") with Err _ => true | _ => false end = true /\
  match w2v_train id rand (fun s => Ret s) o' (doc_of "a b a") with
  | Ret s => (length (m_array (wv_param s)), wv_mod s) = (6%nat, Cbow) | _ => False end.
Proof. vm_compute. auto. Qed.

(** C46. Everything glove's training and saving use is the same for all MinCount and MaxCount. *)
Theorem C46_glove_ignores_filters : forall lower rand flog fpow order o doc minc maxc run,
  glv_train lower rand flog fpow order run (glv_apply (G_MinCount minc) (glv_apply (G_MaxCount maxc) o)) doc =
  glv_train lower rand flog fpow order run o doc.
Proof. exact TrainProps.glv_ignores. Qed.
Print Assumptions C46_glove_ignores_filters.

(** C46. In memory, with counts: whatever the filters, the items are exactly the pairs of words at
    most [Window] positions apart in the whole text, and the dictionary has every word. *)
Theorem C46_glove_items : forall lower rand flog fpow order o doc all,
  readable (glv_Verbose o) (glv_LogBatch o) doc all -> 0 <= glv_Dim o ->
  glv_DocInMemory o = true -> glv_CountType o = "inc"%string ->
  In (glv_SolverType o) ["sgd"; "adagrad"]%string -> (forall m, Permutation (order m) m) ->
  let lw := used_words lower (glv_ToLower o) all in
  Z.of_nat (length (distinct lw)) <= 2 ^ 32 ->
  exists d rows sol items,
    (forall run, glv_train lower rand flog fpow order run o doc =
       run (Glv d (of_rows (S (Z.to_nat (glv_Dim o))) rows) sol items)) /\
    d = dict_add dict_new lw /\
    length rows = (2 * length (distinct lw))%nat /\ all_len (S (Z.to_nat (glv_Dim o))) rows /\
    NoDup (map (fun it => (it_l1 it, it_l2 it)) items) /\
    (forall l1 l2, (exists x w, In (Item l1 l2 x w) items) <->
       exists w1 w2, In (w1, w2) (window_pairs (Z.to_nat (glv_Window o)) lw) /\
         let a := Z.of_nat (fst (dict_id d w1)) in let b := Z.of_nat (fst (dict_id d w2)) in
         l1 = Z.min a b /\ l2 = Z.max a b).
Proof. exact TrainProps.glv_items. Qed.
Print Assumptions C46_glove_items.

(** The word b occurs once, so MinCount 2 drops it from the corpus; glove trains it all the same. *)
Example C46_case :
  let id := fun w : gostring => w in
  let rand := fun _ : nat => fzero in
  let o := glv_new 2 [G_Dim 1; G_DocInMemory; G_MinCount 2] in
  match glv_train id rand (fun x => x) (fun x _ => x) (fun m => m) (fun s => Ret s) o (doc_of "a b a") with
  | Ret g => map (fun it => (it_l1 it, it_l2 it)) (gl_items g) = [(0, 1); (0, 0)]
  | _ => False
  end.
Proof. vm_compute. auto. Qed.

(** C74. Initial parameters, for random draws in [0,1): word2vec and LexVec components lie within
    half of 1/Dim around 0, GloVe components (biases too) between 0 and 1/Dim. *)
Theorem C74_initial_word2vec : forall lower rand o doc c m samples md opt,
  (forall k, is_fin (rand k) = true /\ (0 <= f2r (rand k) < 1)%R) -> 1 <= w2v_Dim o <= 2 ^ 53 ->
  w2v_setup lower rand o doc = Ret (W2v c m samples md opt) ->
  let b := fdiv (f_dec 5 1) (f_of_Z (w2v_Dim o)) in
  Forall (fun x => fle (fopp b) x = true /\ fle x b = true) (m_array m) /\
  match opt with NS ctx _ => Forall (fun x => fle (fopp b) x = true /\ fle x b = true) (m_array ctx) | HS _ _ _ => True end.
Proof. exact TrainProps.w2v_initial. Qed.
Print Assumptions C74_initial_word2vec.

Theorem C74_initial_lexvec : forall lower rand flog fpow order o doc c m samples items,
  (forall k, is_fin (rand k) = true /\ (0 <= f2r (rand k) < 1)%R) -> 1 <= lex_Dim o <= 2 ^ 53 ->
  lxv_setup lower rand flog fpow order o doc = Ret (Lxv c m samples items) ->
  let b := fdiv (f_dec 5 1) (f_of_Z (lex_Dim o)) in
  Forall (fun x => fle (fopp b) x = true /\ fle x b = true) (m_array m).
Proof. exact TrainProps.lxv_initial. Qed.
Print Assumptions C74_initial_lexvec.

Theorem C74_initial_glove : forall lower rand flog fpow order o doc d m sol items,
  (forall k, is_fin (rand k) = true /\ (0 <= f2r (rand k) < 1)%R) -> 1 <= glv_Dim o <= 2 ^ 53 ->
  glv_setup lower rand flog fpow order o doc = Ret (Glv d m sol items) ->
  Forall (fun x => fle fzero x = true /\ fle x (fdiv (f_of_Z 1) (f_of_Z (glv_Dim o))) = true) (m_array m).
Proof. exact TrainProps.glv_initial. Qed.
Print Assumptions C74_initial_glove.

(** C74. With Dim 0 a GloVe model has biases only, and they start as infinities or NaNs. *)
Theorem C74_initial_glove_dim0 : forall lower rand flog fpow order o doc d m sol items,
  (forall k, is_fin (rand k) = true /\ (0 <= f2r (rand k) < 1)%R) -> glv_Dim o = 0 ->
  glv_setup lower rand flog fpow order o doc = Ret (Glv d m sol items) ->
  Forall (fun x => is_fin x = false) (m_array m).
Proof. exact TrainProps.glv_initial0. Qed.
Print Assumptions C74_initial_glove_dim0.

Example C74_case :
  let id := fun w : gostring => w in
  let rand := fun k : nat => fdiv (f_of_Z (Z.of_nat k)) (f_of_Z 8) in
  match w2v_train id rand (fun s => Ret s) (w2v_new 2 [W_Dim 2; W_Model "cbow"; W_Optimizer "hs"]) (doc_of "a b") with
  | Ret s => map fshow (m_array (wv_param s)) = map fshow [f_dec (-25) 2; fdiv (f_of_Z (-3)) (f_of_Z 16); fdiv (f_of_Z (-1)) (f_of_Z 8); fdiv (f_of_Z (-1)) (f_of_Z 16)]
  | _ => False
  end.
Proof. vm_compute. reflexivity. Qed.

(** C75. GloVe on a text without words, file-backed (the default): the dictionary is empty, there
    is nevertheless an item, for the pair of ids (0, 0), and training any item panics. In memory
    there are no items. *)
Theorem C75_glove_empty_text : forall lower rand flog fpow order o doc,
  readable (glv_Verbose o) (glv_LogBatch o) doc [] -> 0 <= glv_Dim o -> 1 <= glv_Window o ->
  glv_CountType o = "inc"%string -> In (glv_SolverType o) ["sgd"; "adagrad"]%string -> (forall m, Permutation (order m) m) ->
  exists d m sol items, glv_setup lower rand flog fpow order o doc = Ret (Glv d m sol items) /\
    dict_len d = 0%nat /\
    if glv_DocInMemory o then items = []
    else exists it, items = [it] /\ it_l1 it = 0 /\ it_l2 it = 0 /\
         glove_train_item (glv_Initlr o) (Z.of_nat (dict_len d)) it (m, sol) = Panic.
Proof. exact TrainProps.glv_empty. Qed.
Print Assumptions C75_glove_empty_text.

Example C75_case :
  let id := fun w : gostring => w in
  let rand := fun _ : nat => fzero in
  match glv_train id rand (fun x => x) (fun x _ => x) (fun m => m) (fun s => Ret s) (glv_new 4 []) (doc_of " ") with
  | Ret g => length (gl_items g) = 1%nat /\ m_array (gl_param g) = []
  | _ => False
  end.
Proof. vm_compute. auto. Qed.
