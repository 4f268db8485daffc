(** * What the options of a command line mean

    [given parse settings name default x]: [x] is the value given last for the option [name], or its
    default (Spec/CommandLine.v). pint, pfloat, parse_bool are strconv.ParseInt(_, 0, 64), ParseFloat(_, 64)
    and ParseBool. *)
From Verif.Lib Require Import Go F64.
From Verif.Spec Require Import CommandLine.
From Verif.Model Require Import Options Flags.
Local Open Scope Z_scope.

Section Meaning.
Variables (pint : gostring -> option Z) (pfloat : gostring -> option f64).

(** The options that the three training commands have in common. *)
Definition common_meaning {T} (settings : list (gostring * gostring)) (s : train_vars T) : Prop :=
  given as_text settings "input" (bs "example/input.txt") (tv_input s) /\
  given as_text settings "output" (bs "example/word_vectors.txt") (tv_output s) /\
  given parse_bool settings "prof" false (tv_prof s) /\
  given as_string settings "vec-type" "single"%string (tv_vec_type s) /\
  given parse_bool settings "help" false (tv_help s).

Definition word2vec_meaning (numcpu : Z) (settings : list (gostring * gostring)) (o : w2v_opts) : Prop :=
  given pint settings "batch" 10000 (w2v_BatchSize o) /\
  given pint settings "dim" 10 (w2v_Dim o) /\
  given pint settings "goroutines" numcpu (w2v_Goroutines o) /\
  given parse_bool settings "in-memory" false (w2v_DocInMemory o) /\
  given pfloat settings "initlr" (f_dec 25 3) (w2v_Initlr o) /\
  given pint settings "iter" 15 (w2v_Iter o) /\
  given pint settings "log-batch" 100000 (w2v_LogBatch o) /\
  given pint settings "max-count" (-1) (w2v_MaxCount o) /\
  given pint settings "max-depth" 100 (w2v_MaxDepth o) /\
  given pint settings "min-count" 5 (w2v_MinCount o) /\
  given pfloat settings "min-lr" (fmul (f_dec 25 3) (f_dec 1 4)) (w2v_MinLR o) /\
  given as_string settings "model" "cbow"%string (w2v_ModelType o) /\
  given pint settings "sample" 5 (w2v_NegativeSampleSize o) /\
  given as_string settings "optimizer" "ns"%string (w2v_OptimizerType o) /\
  given pfloat settings "threshold" (f_dec 1 3) (w2v_SubsampleThreshold o) /\
  given parse_bool settings "to-lower" false (w2v_ToLower o) /\
  given pint settings "update-lr-batch" 100000 (w2v_UpdateLRBatch o) /\
  given parse_bool settings "verbose" false (w2v_Verbose o) /\
  given pint settings "window" 5 (w2v_Window o).

Definition glove_meaning (numcpu : Z) (settings : list (gostring * gostring)) (o : glv_opts) : Prop :=
  given pfloat settings "alpha" (f_dec 75 2) (glv_Alpha o) /\
  given pint settings "batch" 10000 (glv_BatchSize o) /\
  given as_string settings "cnt" "inc"%string (glv_CountType o) /\
  given pint settings "dim" 10 (glv_Dim o) /\
  given pint settings "goroutines" numcpu (glv_Goroutines o) /\
  given parse_bool settings "in-memory" false (glv_DocInMemory o) /\
  given pfloat settings "initlr" (f_dec 25 3) (glv_Initlr o) /\
  given pint settings "iter" 15 (glv_Iter o) /\
  given pint settings "log-batch" 100000 (glv_LogBatch o) /\
  given pint settings "max-count" (-1) (glv_MaxCount o) /\
  given pint settings "min-count" 5 (glv_MinCount o) /\
  given as_string settings "solver" "sgd"%string (glv_SolverType o) /\
  given pfloat settings "threshold" (f_dec 1 3) (glv_SubsampleThreshold o) /\
  given parse_bool settings "to-lower" false (glv_ToLower o) /\
  given parse_bool settings "verbose" false (glv_Verbose o) /\
  given pint settings "window" 5 (glv_Window o) /\
  given pint settings "xmax" 100 (glv_Xmax o).

Definition lexvec_meaning (numcpu : Z) (settings : list (gostring * gostring)) (o : lex_opts) : Prop :=
  given pint settings "batch" 10000 (lex_BatchSize o) /\
  given pint settings "dim" 10 (lex_Dim o) /\
  given pint settings "goroutines" numcpu (lex_Goroutines o) /\
  given parse_bool settings "in-memory" false (lex_DocInMemory o) /\
  given pfloat settings "initlr" (f_dec 25 3) (lex_Initlr o) /\
  given pint settings "iter" 15 (lex_Iter o) /\
  given pint settings "log-batch" 100000 (lex_LogBatch o) /\
  given pint settings "max-count" (-1) (lex_MaxCount o) /\
  given pint settings "min-count" 5 (lex_MinCount o) /\
  given pfloat settings "min-lr" (fmul (f_dec 25 3) (f_dec 1 4)) (lex_MinLR o) /\
  given pint settings "sample" 5 (lex_NegativeSampleSize o) /\
  given as_string settings "rel" "ppmi"%string (lex_RelationType o) /\
  given pfloat settings "smooth" (f_dec 75 2) (lex_Smooth o) /\
  given pfloat settings "threshold" (f_dec 1 3) (lex_SubsampleThreshold o) /\
  given parse_bool settings "to-lower" false (lex_ToLower o) /\
  given pint settings "update-lr-batch" 100000 (lex_UpdateLRBatch o) /\
  given parse_bool settings "verbose" false (lex_Verbose o) /\
  given pint settings "window" 5 (lex_Window o).

Definition query_meaning (settings : list (gostring * gostring)) (s : query_vars) : Prop :=
  given as_text settings "input" (bs "example/word_vectors.txt") (qv_input s) /\
  given pint settings "rank" 10 (qv_rank s) /\
  given parse_bool settings "help" false (qv_help s).
End Meaning.
