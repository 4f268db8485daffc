(** * Model of the Options of pkg/model/{word2vec,glove,lexvec}/options.go and of New

    A functional option is represented by a constructor with the argument it was built with;
    [runtime.NumCPU()] is the argument [numcpu]. LoadForCmd, the registration of the
    flags, is in Model/Flags.v. *)
From Verif.Lib Require Import Go F64.
Local Open Scope Z_scope.

(** word2vec/options.go:60-80, [type Options]. *)
Record w2v_opts := W2vOpts {
  w2v_BatchSize : Z;
  w2v_Dim : Z;
  w2v_DocInMemory : bool;
  w2v_Goroutines : Z;
  w2v_Initlr : f64;
  w2v_Iter : Z;
  w2v_LogBatch : Z;
  w2v_MaxCount : Z;
  w2v_MaxDepth : Z;
  w2v_MinCount : Z;
  w2v_MinLR : f64;
  w2v_ModelType : string;
  w2v_NegativeSampleSize : Z;
  w2v_OptimizerType : string;
  w2v_SubsampleThreshold : f64;
  w2v_ToLower : bool;
  w2v_UpdateLRBatch : Z;
  w2v_Verbose : bool;
  w2v_Window : Z
}.

(** word2vec/options.go:82-104, [DefaultOptions], with the values of the default* variables. *)
Definition w2v_defaults (numcpu : Z) : w2v_opts :=
  W2vOpts 10000 10 false numcpu (f_dec 25 3) 15 100000 (-1) 100 5 (fmul (f_dec 25 3) (f_dec 1 4)) "cbow"%string 5 "ns"%string (f_dec 1 3) false 100000 false 5.

(** word2vec/options.go:130-242: the functional options. *)
Inductive w2v_option :=
| W_BatchSize (v : Z)
| W_Dim (v : Z)
| W_DocInMemory
| W_Goroutines (v : Z)
| W_Initlr (v : f64)
| W_Iter (v : Z)
| W_LogBatch (v : Z)
| W_MaxCount (v : Z)
| W_MaxDepth (v : Z)
| W_MinCount (v : Z)
| W_MinLR (v : f64)
| W_Model (v : string)
| W_NegativeSampleSize (v : Z)
| W_Optimizer (v : string)
| W_SubsampleThreshold (v : f64)
| W_ToLower
| W_UpdateLRBatch (v : Z)
| W_Verbose
| W_Window (v : Z).

(** word2vec/options.go:130-242: what each option does to the Options. *)
Definition w2v_apply (opt : w2v_option) (o : w2v_opts) : w2v_opts :=
  match opt with
  | W_BatchSize v => W2vOpts v (w2v_Dim o) (w2v_DocInMemory o) (w2v_Goroutines o) (w2v_Initlr o) (w2v_Iter o) (w2v_LogBatch o) (w2v_MaxCount o) (w2v_MaxDepth o) (w2v_MinCount o) (w2v_MinLR o) (w2v_ModelType o) (w2v_NegativeSampleSize o) (w2v_OptimizerType o) (w2v_SubsampleThreshold o) (w2v_ToLower o) (w2v_UpdateLRBatch o) (w2v_Verbose o) (w2v_Window o)
  | W_Dim v => W2vOpts (w2v_BatchSize o) v (w2v_DocInMemory o) (w2v_Goroutines o) (w2v_Initlr o) (w2v_Iter o) (w2v_LogBatch o) (w2v_MaxCount o) (w2v_MaxDepth o) (w2v_MinCount o) (w2v_MinLR o) (w2v_ModelType o) (w2v_NegativeSampleSize o) (w2v_OptimizerType o) (w2v_SubsampleThreshold o) (w2v_ToLower o) (w2v_UpdateLRBatch o) (w2v_Verbose o) (w2v_Window o)
  | W_DocInMemory => W2vOpts (w2v_BatchSize o) (w2v_Dim o) true (w2v_Goroutines o) (w2v_Initlr o) (w2v_Iter o) (w2v_LogBatch o) (w2v_MaxCount o) (w2v_MaxDepth o) (w2v_MinCount o) (w2v_MinLR o) (w2v_ModelType o) (w2v_NegativeSampleSize o) (w2v_OptimizerType o) (w2v_SubsampleThreshold o) (w2v_ToLower o) (w2v_UpdateLRBatch o) (w2v_Verbose o) (w2v_Window o)
  | W_Goroutines v => W2vOpts (w2v_BatchSize o) (w2v_Dim o) (w2v_DocInMemory o) v (w2v_Initlr o) (w2v_Iter o) (w2v_LogBatch o) (w2v_MaxCount o) (w2v_MaxDepth o) (w2v_MinCount o) (w2v_MinLR o) (w2v_ModelType o) (w2v_NegativeSampleSize o) (w2v_OptimizerType o) (w2v_SubsampleThreshold o) (w2v_ToLower o) (w2v_UpdateLRBatch o) (w2v_Verbose o) (w2v_Window o)
  | W_Initlr v => W2vOpts (w2v_BatchSize o) (w2v_Dim o) (w2v_DocInMemory o) (w2v_Goroutines o) v (w2v_Iter o) (w2v_LogBatch o) (w2v_MaxCount o) (w2v_MaxDepth o) (w2v_MinCount o) (w2v_MinLR o) (w2v_ModelType o) (w2v_NegativeSampleSize o) (w2v_OptimizerType o) (w2v_SubsampleThreshold o) (w2v_ToLower o) (w2v_UpdateLRBatch o) (w2v_Verbose o) (w2v_Window o)
  | W_Iter v => W2vOpts (w2v_BatchSize o) (w2v_Dim o) (w2v_DocInMemory o) (w2v_Goroutines o) (w2v_Initlr o) v (w2v_LogBatch o) (w2v_MaxCount o) (w2v_MaxDepth o) (w2v_MinCount o) (w2v_MinLR o) (w2v_ModelType o) (w2v_NegativeSampleSize o) (w2v_OptimizerType o) (w2v_SubsampleThreshold o) (w2v_ToLower o) (w2v_UpdateLRBatch o) (w2v_Verbose o) (w2v_Window o)
  | W_LogBatch v => W2vOpts (w2v_BatchSize o) (w2v_Dim o) (w2v_DocInMemory o) (w2v_Goroutines o) (w2v_Initlr o) (w2v_Iter o) v (w2v_MaxCount o) (w2v_MaxDepth o) (w2v_MinCount o) (w2v_MinLR o) (w2v_ModelType o) (w2v_NegativeSampleSize o) (w2v_OptimizerType o) (w2v_SubsampleThreshold o) (w2v_ToLower o) (w2v_UpdateLRBatch o) (w2v_Verbose o) (w2v_Window o)
  | W_MaxCount v => W2vOpts (w2v_BatchSize o) (w2v_Dim o) (w2v_DocInMemory o) (w2v_Goroutines o) (w2v_Initlr o) (w2v_Iter o) (w2v_LogBatch o) v (w2v_MaxDepth o) (w2v_MinCount o) (w2v_MinLR o) (w2v_ModelType o) (w2v_NegativeSampleSize o) (w2v_OptimizerType o) (w2v_SubsampleThreshold o) (w2v_ToLower o) (w2v_UpdateLRBatch o) (w2v_Verbose o) (w2v_Window o)
  | W_MaxDepth v => W2vOpts (w2v_BatchSize o) (w2v_Dim o) (w2v_DocInMemory o) (w2v_Goroutines o) (w2v_Initlr o) (w2v_Iter o) (w2v_LogBatch o) (w2v_MaxCount o) v (w2v_MinCount o) (w2v_MinLR o) (w2v_ModelType o) (w2v_NegativeSampleSize o) (w2v_OptimizerType o) (w2v_SubsampleThreshold o) (w2v_ToLower o) (w2v_UpdateLRBatch o) (w2v_Verbose o) (w2v_Window o)
  | W_MinCount v => W2vOpts (w2v_BatchSize o) (w2v_Dim o) (w2v_DocInMemory o) (w2v_Goroutines o) (w2v_Initlr o) (w2v_Iter o) (w2v_LogBatch o) (w2v_MaxCount o) (w2v_MaxDepth o) v (w2v_MinLR o) (w2v_ModelType o) (w2v_NegativeSampleSize o) (w2v_OptimizerType o) (w2v_SubsampleThreshold o) (w2v_ToLower o) (w2v_UpdateLRBatch o) (w2v_Verbose o) (w2v_Window o)
  | W_MinLR v => W2vOpts (w2v_BatchSize o) (w2v_Dim o) (w2v_DocInMemory o) (w2v_Goroutines o) (w2v_Initlr o) (w2v_Iter o) (w2v_LogBatch o) (w2v_MaxCount o) (w2v_MaxDepth o) (w2v_MinCount o) v (w2v_ModelType o) (w2v_NegativeSampleSize o) (w2v_OptimizerType o) (w2v_SubsampleThreshold o) (w2v_ToLower o) (w2v_UpdateLRBatch o) (w2v_Verbose o) (w2v_Window o)
  | W_Model v => W2vOpts (w2v_BatchSize o) (w2v_Dim o) (w2v_DocInMemory o) (w2v_Goroutines o) (w2v_Initlr o) (w2v_Iter o) (w2v_LogBatch o) (w2v_MaxCount o) (w2v_MaxDepth o) (w2v_MinCount o) (w2v_MinLR o) v (w2v_NegativeSampleSize o) (w2v_OptimizerType o) (w2v_SubsampleThreshold o) (w2v_ToLower o) (w2v_UpdateLRBatch o) (w2v_Verbose o) (w2v_Window o)
  | W_NegativeSampleSize v => W2vOpts (w2v_BatchSize o) (w2v_Dim o) (w2v_DocInMemory o) (w2v_Goroutines o) (w2v_Initlr o) (w2v_Iter o) (w2v_LogBatch o) (w2v_MaxCount o) (w2v_MaxDepth o) (w2v_MinCount o) (w2v_MinLR o) (w2v_ModelType o) v (w2v_OptimizerType o) (w2v_SubsampleThreshold o) (w2v_ToLower o) (w2v_UpdateLRBatch o) (w2v_Verbose o) (w2v_Window o)
  | W_Optimizer v => W2vOpts (w2v_BatchSize o) (w2v_Dim o) (w2v_DocInMemory o) (w2v_Goroutines o) (w2v_Initlr o) (w2v_Iter o) (w2v_LogBatch o) (w2v_MaxCount o) (w2v_MaxDepth o) (w2v_MinCount o) (w2v_MinLR o) (w2v_ModelType o) (w2v_NegativeSampleSize o) v (w2v_SubsampleThreshold o) (w2v_ToLower o) (w2v_UpdateLRBatch o) (w2v_Verbose o) (w2v_Window o)
  | W_SubsampleThreshold v => W2vOpts (w2v_BatchSize o) (w2v_Dim o) (w2v_DocInMemory o) (w2v_Goroutines o) (w2v_Initlr o) (w2v_Iter o) (w2v_LogBatch o) (w2v_MaxCount o) (w2v_MaxDepth o) (w2v_MinCount o) (w2v_MinLR o) (w2v_ModelType o) (w2v_NegativeSampleSize o) (w2v_OptimizerType o) v (w2v_ToLower o) (w2v_UpdateLRBatch o) (w2v_Verbose o) (w2v_Window o)
  | W_ToLower => W2vOpts (w2v_BatchSize o) (w2v_Dim o) (w2v_DocInMemory o) (w2v_Goroutines o) (w2v_Initlr o) (w2v_Iter o) (w2v_LogBatch o) (w2v_MaxCount o) (w2v_MaxDepth o) (w2v_MinCount o) (w2v_MinLR o) (w2v_ModelType o) (w2v_NegativeSampleSize o) (w2v_OptimizerType o) (w2v_SubsampleThreshold o) true (w2v_UpdateLRBatch o) (w2v_Verbose o) (w2v_Window o)
  | W_UpdateLRBatch v => W2vOpts (w2v_BatchSize o) (w2v_Dim o) (w2v_DocInMemory o) (w2v_Goroutines o) (w2v_Initlr o) (w2v_Iter o) (w2v_LogBatch o) (w2v_MaxCount o) (w2v_MaxDepth o) (w2v_MinCount o) (w2v_MinLR o) (w2v_ModelType o) (w2v_NegativeSampleSize o) (w2v_OptimizerType o) (w2v_SubsampleThreshold o) (w2v_ToLower o) v (w2v_Verbose o) (w2v_Window o)
  | W_Verbose => W2vOpts (w2v_BatchSize o) (w2v_Dim o) (w2v_DocInMemory o) (w2v_Goroutines o) (w2v_Initlr o) (w2v_Iter o) (w2v_LogBatch o) (w2v_MaxCount o) (w2v_MaxDepth o) (w2v_MinCount o) (w2v_MinLR o) (w2v_ModelType o) (w2v_NegativeSampleSize o) (w2v_OptimizerType o) (w2v_SubsampleThreshold o) (w2v_ToLower o) (w2v_UpdateLRBatch o) true (w2v_Window o)
  | W_Window v => W2vOpts (w2v_BatchSize o) (w2v_Dim o) (w2v_DocInMemory o) (w2v_Goroutines o) (w2v_Initlr o) (w2v_Iter o) (w2v_LogBatch o) (w2v_MaxCount o) (w2v_MaxDepth o) (w2v_MinCount o) (w2v_MinLR o) (w2v_ModelType o) (w2v_NegativeSampleSize o) (w2v_OptimizerType o) (w2v_SubsampleThreshold o) (w2v_ToLower o) (w2v_UpdateLRBatch o) (w2v_Verbose o) v
  end.

(** word2vec/word2vec.go:53-60, [New]: the options passed to NewForOptions. *)
Definition w2v_new (numcpu : Z) (opts : list w2v_option) : w2v_opts :=
  fold_left (fun o f => w2v_apply f o) opts (w2v_defaults numcpu).

(** glove/options.go:51-69, [type Options]. *)
Record glv_opts := GlvOpts {
  glv_Alpha : f64;
  glv_BatchSize : Z;
  glv_CountType : string;
  glv_Dim : Z;
  glv_DocInMemory : bool;
  glv_Goroutines : Z;
  glv_Initlr : f64;
  glv_Iter : Z;
  glv_LogBatch : Z;
  glv_MaxCount : Z;
  glv_MinCount : Z;
  glv_SolverType : string;
  glv_SubsampleThreshold : f64;
  glv_ToLower : bool;
  glv_Verbose : bool;
  glv_Window : Z;
  glv_Xmax : Z
}.

(** glove/options.go:71-91, [DefaultOptions], with the values of the default* variables. *)
Definition glv_defaults (numcpu : Z) : glv_opts :=
  GlvOpts (f_dec 75 2) 10000 "inc"%string 10 false numcpu (f_dec 25 3) 15 100000 (-1) 5 "sgd"%string (f_dec 1 3) false false 5 100.

(** glove/options.go:115-203: the functional options. *)
Inductive glv_option :=
| G_Alpha (v : f64)
| G_BatchSize (v : Z)
| G_Dim (v : Z)
| G_DocInMemory
| G_Goroutines (v : Z)
| G_Initlr (v : f64)
| G_Iter (v : Z)
| G_MaxCount (v : Z)
| G_MinCount (v : Z)
| G_Solver (v : string)
| G_SubsampleThreshold (v : f64)
| G_ToLower
| G_Verbose
| G_Window (v : Z)
| G_Xmax (v : Z).

(** glove/options.go:115-203: what each option does to the Options. *)
Definition glv_apply (opt : glv_option) (o : glv_opts) : glv_opts :=
  match opt with
  | G_Alpha v => GlvOpts v (glv_BatchSize o) (glv_CountType o) (glv_Dim o) (glv_DocInMemory o) (glv_Goroutines o) (glv_Initlr o) (glv_Iter o) (glv_LogBatch o) (glv_MaxCount o) (glv_MinCount o) (glv_SolverType o) (glv_SubsampleThreshold o) (glv_ToLower o) (glv_Verbose o) (glv_Window o) (glv_Xmax o)
  | G_BatchSize v => GlvOpts (glv_Alpha o) v (glv_CountType o) (glv_Dim o) (glv_DocInMemory o) (glv_Goroutines o) (glv_Initlr o) (glv_Iter o) (glv_LogBatch o) (glv_MaxCount o) (glv_MinCount o) (glv_SolverType o) (glv_SubsampleThreshold o) (glv_ToLower o) (glv_Verbose o) (glv_Window o) (glv_Xmax o)
  | G_Dim v => GlvOpts (glv_Alpha o) (glv_BatchSize o) (glv_CountType o) v (glv_DocInMemory o) (glv_Goroutines o) (glv_Initlr o) (glv_Iter o) (glv_LogBatch o) (glv_MaxCount o) (glv_MinCount o) (glv_SolverType o) (glv_SubsampleThreshold o) (glv_ToLower o) (glv_Verbose o) (glv_Window o) (glv_Xmax o)
  | G_DocInMemory => GlvOpts (glv_Alpha o) (glv_BatchSize o) (glv_CountType o) (glv_Dim o) true (glv_Goroutines o) (glv_Initlr o) (glv_Iter o) (glv_LogBatch o) (glv_MaxCount o) (glv_MinCount o) (glv_SolverType o) (glv_SubsampleThreshold o) (glv_ToLower o) (glv_Verbose o) (glv_Window o) (glv_Xmax o)
  | G_Goroutines v => GlvOpts (glv_Alpha o) (glv_BatchSize o) (glv_CountType o) (glv_Dim o) (glv_DocInMemory o) v (glv_Initlr o) (glv_Iter o) (glv_LogBatch o) (glv_MaxCount o) (glv_MinCount o) (glv_SolverType o) (glv_SubsampleThreshold o) (glv_ToLower o) (glv_Verbose o) (glv_Window o) (glv_Xmax o)
  | G_Initlr v => GlvOpts (glv_Alpha o) (glv_BatchSize o) (glv_CountType o) (glv_Dim o) (glv_DocInMemory o) (glv_Goroutines o) v (glv_Iter o) (glv_LogBatch o) (glv_MaxCount o) (glv_MinCount o) (glv_SolverType o) (glv_SubsampleThreshold o) (glv_ToLower o) (glv_Verbose o) (glv_Window o) (glv_Xmax o)
  | G_Iter v => GlvOpts (glv_Alpha o) (glv_BatchSize o) (glv_CountType o) (glv_Dim o) (glv_DocInMemory o) (glv_Goroutines o) (glv_Initlr o) v (glv_LogBatch o) (glv_MaxCount o) (glv_MinCount o) (glv_SolverType o) (glv_SubsampleThreshold o) (glv_ToLower o) (glv_Verbose o) (glv_Window o) (glv_Xmax o)
  | G_MaxCount v => GlvOpts (glv_Alpha o) (glv_BatchSize o) (glv_CountType o) (glv_Dim o) (glv_DocInMemory o) (glv_Goroutines o) (glv_Initlr o) (glv_Iter o) (glv_LogBatch o) v (glv_MinCount o) (glv_SolverType o) (glv_SubsampleThreshold o) (glv_ToLower o) (glv_Verbose o) (glv_Window o) (glv_Xmax o)
  | G_MinCount v => GlvOpts (glv_Alpha o) (glv_BatchSize o) (glv_CountType o) (glv_Dim o) (glv_DocInMemory o) (glv_Goroutines o) (glv_Initlr o) (glv_Iter o) (glv_LogBatch o) (glv_MaxCount o) v (glv_SolverType o) (glv_SubsampleThreshold o) (glv_ToLower o) (glv_Verbose o) (glv_Window o) (glv_Xmax o)
  | G_Solver v => GlvOpts (glv_Alpha o) (glv_BatchSize o) (glv_CountType o) (glv_Dim o) (glv_DocInMemory o) (glv_Goroutines o) (glv_Initlr o) (glv_Iter o) (glv_LogBatch o) (glv_MaxCount o) (glv_MinCount o) v (glv_SubsampleThreshold o) (glv_ToLower o) (glv_Verbose o) (glv_Window o) (glv_Xmax o)
  | G_SubsampleThreshold v => GlvOpts (glv_Alpha o) (glv_BatchSize o) (glv_CountType o) (glv_Dim o) (glv_DocInMemory o) (glv_Goroutines o) (glv_Initlr o) (glv_Iter o) (glv_LogBatch o) (glv_MaxCount o) (glv_MinCount o) (glv_SolverType o) v (glv_ToLower o) (glv_Verbose o) (glv_Window o) (glv_Xmax o)
  | G_ToLower => GlvOpts (glv_Alpha o) (glv_BatchSize o) (glv_CountType o) (glv_Dim o) (glv_DocInMemory o) (glv_Goroutines o) (glv_Initlr o) (glv_Iter o) (glv_LogBatch o) (glv_MaxCount o) (glv_MinCount o) (glv_SolverType o) (glv_SubsampleThreshold o) true (glv_Verbose o) (glv_Window o) (glv_Xmax o)
  | G_Verbose => GlvOpts (glv_Alpha o) (glv_BatchSize o) (glv_CountType o) (glv_Dim o) (glv_DocInMemory o) (glv_Goroutines o) (glv_Initlr o) (glv_Iter o) (glv_LogBatch o) (glv_MaxCount o) (glv_MinCount o) (glv_SolverType o) (glv_SubsampleThreshold o) (glv_ToLower o) true (glv_Window o) (glv_Xmax o)
  | G_Window v => GlvOpts (glv_Alpha o) (glv_BatchSize o) (glv_CountType o) (glv_Dim o) (glv_DocInMemory o) (glv_Goroutines o) (glv_Initlr o) (glv_Iter o) (glv_LogBatch o) (glv_MaxCount o) (glv_MinCount o) (glv_SolverType o) (glv_SubsampleThreshold o) (glv_ToLower o) (glv_Verbose o) v (glv_Xmax o)
  | G_Xmax v => GlvOpts (glv_Alpha o) (glv_BatchSize o) (glv_CountType o) (glv_Dim o) (glv_DocInMemory o) (glv_Goroutines o) (glv_Initlr o) (glv_Iter o) (glv_LogBatch o) (glv_MaxCount o) (glv_MinCount o) (glv_SolverType o) (glv_SubsampleThreshold o) (glv_ToLower o) (glv_Verbose o) (glv_Window o) v
  end.

(** glove/glove.go:49-56, [New]: the options passed to NewForOptions. *)
Definition glv_new (numcpu : Z) (opts : list glv_option) : glv_opts :=
  fold_left (fun o f => glv_apply f o) opts (glv_defaults numcpu).

(** lexvec/options.go:54-73, [type Options]. *)
Record lex_opts := LexOpts {
  lex_BatchSize : Z;
  lex_Dim : Z;
  lex_DocInMemory : bool;
  lex_Goroutines : Z;
  lex_Initlr : f64;
  lex_Iter : Z;
  lex_LogBatch : Z;
  lex_MaxCount : Z;
  lex_MinCount : Z;
  lex_MinLR : f64;
  lex_NegativeSampleSize : Z;
  lex_RelationType : string;
  lex_Smooth : f64;
  lex_SubsampleThreshold : f64;
  lex_ToLower : bool;
  lex_UpdateLRBatch : Z;
  lex_Verbose : bool;
  lex_Window : Z
}.

(** lexvec/options.go:75-96, [DefaultOptions], with the values of the default* variables. *)
Definition lex_defaults (numcpu : Z) : lex_opts :=
  LexOpts 10000 10 false numcpu (f_dec 25 3) 15 100000 (-1) 5 (fmul (f_dec 25 3) (f_dec 1 4)) 5 "ppmi"%string (f_dec 75 2) (f_dec 1 3) false 100000 false 5.

(** lexvec/options.go:121-227: the functional options. *)
Inductive lex_option :=
| L_BatchSize (v : Z)
| L_Dim (v : Z)
| L_DocInMemory
| L_Goroutines (v : Z)
| L_Initlr (v : f64)
| L_Iter (v : Z)
| L_LogBatch (v : Z)
| L_MaxCount (v : Z)
| L_MinCount (v : Z)
| L_MinLR (v : f64)
| L_NegativeSampleSize (v : Z)
| L_Relation (v : string)
| L_Smooth (v : f64)
| L_SubsampleThreshold (v : f64)
| L_ToLower
| L_UpdateLRBatch (v : Z)
| L_Verbose
| L_Window (v : Z).

(** lexvec/options.go:121-227: what each option does to the Options. *)
Definition lex_apply (opt : lex_option) (o : lex_opts) : lex_opts :=
  match opt with
  | L_BatchSize v => LexOpts v (lex_Dim o) (lex_DocInMemory o) (lex_Goroutines o) (lex_Initlr o) (lex_Iter o) (lex_LogBatch o) (lex_MaxCount o) (lex_MinCount o) (lex_MinLR o) (lex_NegativeSampleSize o) (lex_RelationType o) (lex_Smooth o) (lex_SubsampleThreshold o) (lex_ToLower o) (lex_UpdateLRBatch o) (lex_Verbose o) (lex_Window o)
  | L_Dim v => LexOpts (lex_BatchSize o) v (lex_DocInMemory o) (lex_Goroutines o) (lex_Initlr o) (lex_Iter o) (lex_LogBatch o) (lex_MaxCount o) (lex_MinCount o) (lex_MinLR o) (lex_NegativeSampleSize o) (lex_RelationType o) (lex_Smooth o) (lex_SubsampleThreshold o) (lex_ToLower o) (lex_UpdateLRBatch o) (lex_Verbose o) (lex_Window o)
  | L_DocInMemory => LexOpts (lex_BatchSize o) (lex_Dim o) true (lex_Goroutines o) (lex_Initlr o) (lex_Iter o) (lex_LogBatch o) (lex_MaxCount o) (lex_MinCount o) (lex_MinLR o) (lex_NegativeSampleSize o) (lex_RelationType o) (lex_Smooth o) (lex_SubsampleThreshold o) (lex_ToLower o) (lex_UpdateLRBatch o) (lex_Verbose o) (lex_Window o)
  | L_Goroutines v => LexOpts (lex_BatchSize o) (lex_Dim o) (lex_DocInMemory o) v (lex_Initlr o) (lex_Iter o) (lex_LogBatch o) (lex_MaxCount o) (lex_MinCount o) (lex_MinLR o) (lex_NegativeSampleSize o) (lex_RelationType o) (lex_Smooth o) (lex_SubsampleThreshold o) (lex_ToLower o) (lex_UpdateLRBatch o) (lex_Verbose o) (lex_Window o)
  | L_Initlr v => LexOpts (lex_BatchSize o) (lex_Dim o) (lex_DocInMemory o) (lex_Goroutines o) v (lex_Iter o) (lex_LogBatch o) (lex_MaxCount o) (lex_MinCount o) (lex_MinLR o) (lex_NegativeSampleSize o) (lex_RelationType o) (lex_Smooth o) (lex_SubsampleThreshold o) (lex_ToLower o) (lex_UpdateLRBatch o) (lex_Verbose o) (lex_Window o)
  | L_Iter v => LexOpts (lex_BatchSize o) (lex_Dim o) (lex_DocInMemory o) (lex_Goroutines o) (lex_Initlr o) v (lex_LogBatch o) (lex_MaxCount o) (lex_MinCount o) (lex_MinLR o) (lex_NegativeSampleSize o) (lex_RelationType o) (lex_Smooth o) (lex_SubsampleThreshold o) (lex_ToLower o) (lex_UpdateLRBatch o) (lex_Verbose o) (lex_Window o)
  | L_LogBatch v => LexOpts (lex_BatchSize o) (lex_Dim o) (lex_DocInMemory o) (lex_Goroutines o) (lex_Initlr o) (lex_Iter o) v (lex_MaxCount o) (lex_MinCount o) (lex_MinLR o) (lex_NegativeSampleSize o) (lex_RelationType o) (lex_Smooth o) (lex_SubsampleThreshold o) (lex_ToLower o) (lex_UpdateLRBatch o) (lex_Verbose o) (lex_Window o)
  | L_MaxCount v => LexOpts (lex_BatchSize o) (lex_Dim o) (lex_DocInMemory o) (lex_Goroutines o) (lex_Initlr o) (lex_Iter o) (lex_LogBatch o) v (lex_MinCount o) (lex_MinLR o) (lex_NegativeSampleSize o) (lex_RelationType o) (lex_Smooth o) (lex_SubsampleThreshold o) (lex_ToLower o) (lex_UpdateLRBatch o) (lex_Verbose o) (lex_Window o)
  | L_MinCount v => LexOpts (lex_BatchSize o) (lex_Dim o) (lex_DocInMemory o) (lex_Goroutines o) (lex_Initlr o) (lex_Iter o) (lex_LogBatch o) (lex_MaxCount o) v (lex_MinLR o) (lex_NegativeSampleSize o) (lex_RelationType o) (lex_Smooth o) (lex_SubsampleThreshold o) (lex_ToLower o) (lex_UpdateLRBatch o) (lex_Verbose o) (lex_Window o)
  | L_MinLR v => LexOpts (lex_BatchSize o) (lex_Dim o) (lex_DocInMemory o) (lex_Goroutines o) (lex_Initlr o) (lex_Iter o) (lex_LogBatch o) (lex_MaxCount o) (lex_MinCount o) v (lex_NegativeSampleSize o) (lex_RelationType o) (lex_Smooth o) (lex_SubsampleThreshold o) (lex_ToLower o) (lex_UpdateLRBatch o) (lex_Verbose o) (lex_Window o)
  | L_NegativeSampleSize v => LexOpts (lex_BatchSize o) (lex_Dim o) (lex_DocInMemory o) (lex_Goroutines o) (lex_Initlr o) (lex_Iter o) (lex_LogBatch o) (lex_MaxCount o) (lex_MinCount o) (lex_MinLR o) v (lex_RelationType o) (lex_Smooth o) (lex_SubsampleThreshold o) (lex_ToLower o) (lex_UpdateLRBatch o) (lex_Verbose o) (lex_Window o)
  | L_Relation v => LexOpts (lex_BatchSize o) (lex_Dim o) (lex_DocInMemory o) (lex_Goroutines o) (lex_Initlr o) (lex_Iter o) (lex_LogBatch o) (lex_MaxCount o) (lex_MinCount o) (lex_MinLR o) (lex_NegativeSampleSize o) v (lex_Smooth o) (lex_SubsampleThreshold o) (lex_ToLower o) (lex_UpdateLRBatch o) (lex_Verbose o) (lex_Window o)
  | L_Smooth v => LexOpts (lex_BatchSize o) (lex_Dim o) (lex_DocInMemory o) (lex_Goroutines o) (lex_Initlr o) (lex_Iter o) (lex_LogBatch o) (lex_MaxCount o) (lex_MinCount o) (lex_MinLR o) (lex_NegativeSampleSize o) (lex_RelationType o) v (lex_SubsampleThreshold o) (lex_ToLower o) (lex_UpdateLRBatch o) (lex_Verbose o) (lex_Window o)
  | L_SubsampleThreshold v => LexOpts (lex_BatchSize o) (lex_Dim o) (lex_DocInMemory o) (lex_Goroutines o) (lex_Initlr o) (lex_Iter o) (lex_LogBatch o) (lex_MaxCount o) (lex_MinCount o) (lex_MinLR o) (lex_NegativeSampleSize o) (lex_RelationType o) (lex_Smooth o) v (lex_ToLower o) (lex_UpdateLRBatch o) (lex_Verbose o) (lex_Window o)
  | L_ToLower => LexOpts (lex_BatchSize o) (lex_Dim o) (lex_DocInMemory o) (lex_Goroutines o) (lex_Initlr o) (lex_Iter o) (lex_LogBatch o) (lex_MaxCount o) (lex_MinCount o) (lex_MinLR o) (lex_NegativeSampleSize o) (lex_RelationType o) (lex_Smooth o) (lex_SubsampleThreshold o) true (lex_UpdateLRBatch o) (lex_Verbose o) (lex_Window o)
  | L_UpdateLRBatch v => LexOpts (lex_BatchSize o) (lex_Dim o) (lex_DocInMemory o) (lex_Goroutines o) (lex_Initlr o) (lex_Iter o) (lex_LogBatch o) (lex_MaxCount o) (lex_MinCount o) (lex_MinLR o) (lex_NegativeSampleSize o) (lex_RelationType o) (lex_Smooth o) (lex_SubsampleThreshold o) (lex_ToLower o) v (lex_Verbose o) (lex_Window o)
  | L_Verbose => LexOpts (lex_BatchSize o) (lex_Dim o) (lex_DocInMemory o) (lex_Goroutines o) (lex_Initlr o) (lex_Iter o) (lex_LogBatch o) (lex_MaxCount o) (lex_MinCount o) (lex_MinLR o) (lex_NegativeSampleSize o) (lex_RelationType o) (lex_Smooth o) (lex_SubsampleThreshold o) (lex_ToLower o) (lex_UpdateLRBatch o) true (lex_Window o)
  | L_Window v => LexOpts (lex_BatchSize o) (lex_Dim o) (lex_DocInMemory o) (lex_Goroutines o) (lex_Initlr o) (lex_Iter o) (lex_LogBatch o) (lex_MaxCount o) (lex_MinCount o) (lex_MinLR o) (lex_NegativeSampleSize o) (lex_RelationType o) (lex_Smooth o) (lex_SubsampleThreshold o) (lex_ToLower o) (lex_UpdateLRBatch o) (lex_Verbose o) v
  end.

(** lexvec/lexvec.go:52-59, [New]: the options passed to NewForOptions. *)
Definition lex_new (numcpu : Z) (opts : list lex_option) : lex_opts :=
  fold_left (fun o f => lex_apply f o) opts (lex_defaults numcpu).
