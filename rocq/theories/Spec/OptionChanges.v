(** * Options with some fields changed *)
From Verif.Lib Require Import Go F64.
From Verif.Model Require Import Options.
Local Open Scope Z_scope.

(** [o] with other values for MaxCount, MinCount, SubsampleThreshold and BatchSize. *)
Definition glv_with_unused (o : glv_opts) (maxc minc batch : Z) (threshold : f64) : glv_opts :=
  GlvOpts (glv_Alpha o) batch (glv_CountType o) (glv_Dim o) (glv_DocInMemory o) (glv_Goroutines o) (glv_Initlr o) (glv_Iter o)
          (glv_LogBatch o) maxc minc (glv_SolverType o) threshold (glv_ToLower o) (glv_Verbose o) (glv_Window o) (glv_Xmax o).

(** [o] with other values for BatchSize, MaxDepth and NegativeSampleSize. *)
Definition w2v_with_unused (o : w2v_opts) (batch depth negatives : Z) : w2v_opts :=
  W2vOpts batch (w2v_Dim o) (w2v_DocInMemory o) (w2v_Goroutines o) (w2v_Initlr o) (w2v_Iter o) (w2v_LogBatch o) (w2v_MaxCount o)
          depth (w2v_MinCount o) (w2v_MinLR o) (w2v_ModelType o) negatives (w2v_OptimizerType o) (w2v_SubsampleThreshold o)
          (w2v_ToLower o) (w2v_UpdateLRBatch o) (w2v_Verbose o) (w2v_Window o).

(** [o] with other values for Verbose and LogBatch. *)
Definition w2v_with_log (o : w2v_opts) (verbose : bool) (log_batch : Z) : w2v_opts :=
  W2vOpts (w2v_BatchSize o) (w2v_Dim o) (w2v_DocInMemory o) (w2v_Goroutines o) (w2v_Initlr o) (w2v_Iter o) log_batch (w2v_MaxCount o)
          (w2v_MaxDepth o) (w2v_MinCount o) (w2v_MinLR o) (w2v_ModelType o) (w2v_NegativeSampleSize o) (w2v_OptimizerType o)
          (w2v_SubsampleThreshold o) (w2v_ToLower o) (w2v_UpdateLRBatch o) verbose (w2v_Window o).
Definition glv_with_log (o : glv_opts) (verbose : bool) (log_batch : Z) : glv_opts :=
  GlvOpts (glv_Alpha o) (glv_BatchSize o) (glv_CountType o) (glv_Dim o) (glv_DocInMemory o) (glv_Goroutines o) (glv_Initlr o) (glv_Iter o)
          log_batch (glv_MaxCount o) (glv_MinCount o) (glv_SolverType o) (glv_SubsampleThreshold o) (glv_ToLower o) verbose (glv_Window o) (glv_Xmax o).
Definition lex_with_log (o : lex_opts) (verbose : bool) (log_batch : Z) : lex_opts :=
  LexOpts (lex_BatchSize o) (lex_Dim o) (lex_DocInMemory o) (lex_Goroutines o) (lex_Initlr o) (lex_Iter o) log_batch (lex_MaxCount o)
          (lex_MinCount o) (lex_MinLR o) (lex_NegativeSampleSize o) (lex_RelationType o) (lex_Smooth o) (lex_SubsampleThreshold o)
          (lex_ToLower o) (lex_UpdateLRBatch o) verbose (lex_Window o).
(** LexVec's Load reports per BatchSize: [o] with another BatchSize. *)
Definition lex_with_batch (o : lex_opts) (batch : Z) : lex_opts :=
  LexOpts batch (lex_Dim o) (lex_DocInMemory o) (lex_Goroutines o) (lex_Initlr o) (lex_Iter o) (lex_LogBatch o) (lex_MaxCount o)
          (lex_MinCount o) (lex_MinLR o) (lex_NegativeSampleSize o) (lex_RelationType o) (lex_Smooth o) (lex_SubsampleThreshold o)
          (lex_ToLower o) (lex_UpdateLRBatch o) (lex_Verbose o) (lex_Window o).
