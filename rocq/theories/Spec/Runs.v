(** * What it means for a training run to be safe and to end *)
From Verif.Lib Require Import Go F64.
From Verif.Spec Require Import Readable Words.
From Verif.Model Require Import Sched Run Options Reader.

(** The parts into which a document is cut; each part is trained by its own goroutine. *)
Definition parts {A} (x : source A) : list (list A) := match x with Mem r => r | Chan u _ b => b ++ u end.

Section Runs.
Context {A X : Type}.
Variables (c : cfg) (E : effects A X) (iter : nat) (mk : nat -> source A) (v0 : X).

(** In no execution does any goroutine fail. *)
Definition never_fails : Prop :=
  forall l v r, reaches c E iter mk v0 l v -> vrun_step c E iter mk l v r -> exists p, r = Ret p.

(** Every execution ends after at most [bound] steps, and the only configurations without a next step
    are those in which the training function has returned. *)
Definition ends_within (bound : nat) : Prop :=
  (forall n l v, vruns c E iter mk n [init c (mk 0)] v0 l v -> 1 <= iter -> n <= bound) /\
  (forall l v, reaches c E iter mk v0 l v -> (forall r, ~ vrun_step c E iter mk l v r) -> returned iter l).
End Runs.

Local Open Scope Z_scope.

(** Texts and options that the training accepts. The text has the words [all]. *)
Record lxv_usable (lower : gostring -> gostring) (o : lex_opts) (doc : reader) (all : list gostring) : Prop := {
  lu_text : readable (lex_Verbose o) (lex_BatchSize o) doc all;
  lu_log : lex_Verbose o = false \/ lex_LogBatch o <> 0;
  lu_dim : 0 <= lex_Dim o;
  lu_window : 1 <= lex_Window o < 2 ^ 63;
  lu_rel : In (lex_RelationType o) ["ppmi"; "pmi"; "co"; "logco"]%string;
  lu_g : 1 <= lex_Goroutines o;
  lu_batch : if lex_DocInMemory o then Z.of_nat (length all) + lex_Goroutines o <= 2 ^ 53 else 1 <= lex_BatchSize o;
  lu_lr : lex_UpdateLRBatch o <> 0;
  lu_words : Z.of_nat (length (distinct (used_words lower (lex_ToLower o) all))) <= 2 ^ 32 }.

(** GloVe: in file-backed mode the text must not be empty (C75). The number of pairs of different
    words is what the workers divide among them. *)
Record glv_usable (lower : gostring -> gostring) (o : glv_opts) (doc : reader) (all : list gostring) : Prop := {
  gu_text : readable (glv_Verbose o) (glv_LogBatch o) doc all;
  gu_words1 : glv_DocInMemory o = true \/ all <> [];
  gu_dim : 0 <= glv_Dim o;
  gu_window : 1 <= glv_Window o;
  gu_solver : In (glv_SolverType o) ["sgd"; "adagrad"]%string;
  gu_g : 1 <= glv_Goroutines o;
  gu_words : let V := Z.of_nat (length (distinct (used_words lower (glv_ToLower o) all))) in V * V + glv_Goroutines o <= 2 ^ 53 }.

Record w2v_usable (lower : gostring -> gostring) (o : w2v_opts) (doc : reader) (all : list gostring) : Prop := {
  wu_text : readable (w2v_Verbose o) (w2v_LogBatch o) doc all;
  wu_dim : 0 <= w2v_Dim o;
  wu_window : 1 <= w2v_Window o < 2 ^ 63;
  wu_model : In (w2v_ModelType o) ["skipgram"; "cbow"]%string;
  wu_opt : In (w2v_OptimizerType o) ["ns"; "hs"]%string;
  wu_depth : 0 <= w2v_MaxDepth o;
  wu_g : 1 <= w2v_Goroutines o;
  wu_batch : if w2v_DocInMemory o then Z.of_nat (length all) + w2v_Goroutines o <= 2 ^ 53 else 1 <= w2v_BatchSize o;
  wu_lr : w2v_UpdateLRBatch o <> 0;
  wu_words : Z.of_nat (length (distinct (used_words lower (w2v_ToLower o) all))) < 2 ^ 63 }.
