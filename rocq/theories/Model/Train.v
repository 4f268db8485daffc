(** * Model of Train of pkg/model/{word2vec,glove,lexvec} up to the start of the workers

    [rand k] is the result of the k-th call of rand.Float64() and [lower] is strings.ToLower; both are
    arbitrary. What the worker goroutines then do to the parameters is the argument [run] here: the
    workers are modelled in Word2vec.v, Glove.v, Lexvec.v (one training step) and Sched.v
    (goroutines). *)
From Verif.Lib Require Import Go F64.
From Verif.Model Require Import Dictionary Encode Cooc Reader Corpus Matrix Subsample Huffman Word2vec Glove Lexvec Options.
Local Open Scope Z_scope.

(** word2vec/options.go:26-29 and 33-36, glove/options.go:26-29. *)
Definition cbow_type : string := "cbow".
(** word2vec/options.go:28. *)
Definition skipgram_type : string := "skipgram".
(** word2vec/options.go:34. *)
Definition ns_type : string := "ns".
(** word2vec/options.go:35. *)
Definition hs_type : string := "hs".
(** glove/options.go:27. *)
Definition sgd_type : string := "sgd".
(** glove/options.go:28. *)
Definition adagrad_type : string := "adagrad".

Section Train.
Variables (lower : gostring -> gostring) (rand : nat -> f64).

(** word2vec.go:75-79, glove.go:69-73, lexvec.go:74-78 and the call of Load that follows. *)
Definition load_corpus (in_memory to_lower : bool) (maxc minc : Z) (verbose : bool) (log_batch : Z)
  (with_co : option with_cooc) (doc : reader) : outcome corpus :=
  let load := if in_memory then mem_load lower verbose log_batch else fs_load lower verbose log_batch in
  let (c, r) := load (corpus_new doc to_lower maxc minc) with_co in
  obind r (fun _ => Ret c).

(** The callbacks that fill a new row from rand.Float64(): the state is the number of calls so far.
    The loops run over all components, since the rows have exactly the loop's length. word2vec.go:90-94, glove.go:91-95, lexvec.go:95-99. *)
Definition fill_row (value : nat -> f64) : nat -> Z -> list f64 -> nat * list f64 :=
  fun k _ row => ((k + length row)%nat, map value (seq k (length row))).

(** word2vec.go:92, optimizer.go:43, lexvec.go:97: [(rand.Float64() - 0.5) / float64(dim)]. *)
Definition centered (dim : Z) (k : nat) : f64 := fdiv (fsub (rand k) (f_dec 5 1)) (f_of_Z dim).
(** glove.go:93: [rand.Float64() / float64(dim)]. *)
Definition scaled (dim : Z) (k : nat) : f64 := fdiv (rand k) (f_of_Z dim).

(** ** word2vec *)

(** word2vec/model.go:32-35, 85-88. *)
Inductive mod_kind := SkipGram | Cbow.

(** word2vec.go:39-51. *)
Record w2v := W2v { wv_corpus : corpus; wv_param : matrix; wv_samples : list f64; wv_mod : mod_kind; wv_opt : optimizer }.

(** model.go:37-46 and 90-102, [newSkipGram] and [newCbow]: a channel of capacity Goroutines filled
    with that many scratch slices of length Dim. Negative sizes panic. *)
Definition new_mod (k : mod_kind) (goroutines dim : Z) : outcome mod_kind :=
  if goroutines <? 0 then Panic
  else if (0 <? goroutines) && (dim <? 0) then Panic
  else Ret k.

(** word2vec.go:74-122, [Train] until the choice between train and batchTrain. *)
Definition w2v_setup (o : w2v_opts) (doc : reader) : outcome w2v :=
  obind (load_corpus (w2v_DocInMemory o) (w2v_ToLower o) (w2v_MaxCount o) (w2v_MinCount o)
                     (w2v_Verbose o) (w2v_LogBatch o) None doc) (fun c =>
  let d := c_dic c in let V := Z.of_nat (dict_len d) in let dim := w2v_Dim o in
  obind (mat_new V dim (fill_row (centered dim)) 0%nat) (fun '(k, param) =>
  obind (subsample_new d (w2v_SubsampleThreshold o)) (fun samples =>
  obind (if String.eqb (w2v_ModelType o) skipgram_type then new_mod SkipGram (w2v_Goroutines o) dim
         else if String.eqb (w2v_ModelType o) cbow_type then new_mod Cbow (w2v_Goroutines o) dim
         else Err "invalid model") (fun md =>
  obind (if String.eqb (w2v_OptimizerType o) ns_type then
           obind (mat_new V dim (fill_row (centered dim)) k) (fun '(_, ctx) =>
           Ret (NS ctx (w2v_NegativeSampleSize o)))
         else if String.eqb (w2v_OptimizerType o) hs_type then
           obind (huffman_tree d dim) (fun '(h, set) => Ret (HS h set (w2v_MaxDepth o)))
         else Err "invalid optimizer") (fun opt =>
  Ret (W2v c param samples md opt)))))).

(** word2vec.go:74-133, [Train]; [run] is train or batchTrain. *)
Definition w2v_train (run : w2v -> outcome w2v) (o : w2v_opts) (doc : reader) : outcome w2v :=
  obind (w2v_setup o doc) run.

(** ** GloVe; [order] is the iteration order of the map. *)
Variables (flog : f64 -> f64) (fpow : f64 -> f64 -> f64) (order : list (Z * f64) -> list (Z * f64)).

(** glove.go:38-47, without the opts, and with the items of train. *)
Record glv := Glv { gl_dic : dict; gl_param : matrix; gl_solver : solver; gl_items : list item }.

(** glove.go:68-111, [Train] and the beginning of train. *)
Definition glv_setup (o : glv_opts) (doc : reader) : outcome glv :=
  obind (load_corpus (glv_DocInMemory o) (glv_ToLower o) (glv_MaxCount o) (glv_MinCount o)
                     (glv_Verbose o) (glv_LogBatch o)
                     (Some {| w_type := glv_CountType o; w_window := glv_Window o |}) doc) (fun c =>
  let d := c_dic c in let V := Z.of_nat (dict_len d) in let dim := glv_Dim o in
  obind (mat_new (V * 2) (dim + 1) (fill_row (scaled dim)) 0%nat) (fun '(_, param) =>
  obind (if String.eqb (glv_SolverType o) sgd_type then Ret Stochastic
         else if String.eqb (glv_SolverType o) adagrad_type then
           obind (new_adagrad V dim) (fun g => Ret (AdaGrad g))
         else Err "invalid solver") (fun sol =>
  match c_cooc c with
  | None => Panic                                                  (* nil pointer *)
  | Some co =>
      obind (make_items flog fpow (glv_Xmax o) (glv_Alpha o) (glv_Verbose o) (glv_LogBatch o) (order (co_ma co)))
            (fun items => Ret (Glv d param sol items))
  end))).

(** glove.go:68-135 with the goroutines as the argument [run]. *)
Definition glv_train (run : glv -> outcome glv) (o : glv_opts) (doc : reader) : outcome glv :=
  obind (glv_setup o doc) run.

(** ** LexVec *)

(** lexvec.go:40-50, without the opts, and with the items of train/batchTrain. *)
Record lxv := Lxv { lx_corpus : corpus; lx_param : matrix; lx_samples : list f64; lx_items : list (Z * f64) }.

(** lexvec.go:73-103 with lexvec.go:117-120 and 148-151. Load reports per BatchSize (lexvec.go:85),
    makeItems per LogBatch. *)
Definition lxv_setup (o : lex_opts) (doc : reader) : outcome lxv :=
  obind (load_corpus (lex_DocInMemory o) (lex_ToLower o) (lex_MaxCount o) (lex_MinCount o)
                     (lex_Verbose o) (lex_BatchSize o)
                     (Some {| w_type := increment; w_window := lex_Window o |}) doc) (fun c =>
  let d := c_dic c in let V := Z.of_nat (dict_len d) in let dim := lex_Dim o in
  obind (mat_new (V * 2) dim (fill_row (centered dim)) 0%nat) (fun '(_, param) =>
  obind (subsample_new d (lex_SubsampleThreshold o)) (fun samples =>
  match c_cooc c with
  | None => Panic                                                  (* nil pointer *)
  | Some co =>
      obind (lex_make_items flog fpow d (Z.of_nat (c_len c)) (lex_RelationType o) (lex_Smooth o)
                            (lex_Verbose o) (lex_LogBatch o) (order (co_ma co)))
            (fun items => Ret (Lxv c param samples items))
  end))).

(** lexvec.go:73-171 with the goroutines as the argument [run]. *)
Definition lxv_train (run : lxv -> outcome lxv) (o : lex_opts) (doc : reader) : outcome lxv :=
  obind (lxv_setup o doc) run.
End Train.
