(** * C67: options *)
From Verif.Lib Require Import Go F64.
From Verif.Model Require Import Options.
From Verif.Proofs Require Options.
Local Open Scope Z_scope.

(** The last value given for a field, or the default. [sel] picks the options for that field. *)
Definition last_given {O A} (sel : O -> option A) (dflt : A) (l : list O) : A :=
  last (flat_map (fun o => match sel o with Some v => [v] | None => [] end) l) dflt.

(** C67. word2vec: every field has the last value given for it, or its default. *)
Theorem C67_word2vec_options : forall numcpu (l : list w2v_option),
  let o := w2v_new numcpu l in
  w2v_BatchSize o = last_given (fun x => match x with W_BatchSize v => Some v | _ => None end) 10000 l /\
  w2v_Dim o = last_given (fun x => match x with W_Dim v => Some v | _ => None end) 10 l /\
  w2v_DocInMemory o = last_given (fun x => match x with W_DocInMemory => Some true | _ => None end) false l /\
  w2v_Goroutines o = last_given (fun x => match x with W_Goroutines v => Some v | _ => None end) numcpu l /\
  w2v_Initlr o = last_given (fun x => match x with W_Initlr v => Some v | _ => None end) (f_dec 25 3) l /\
  w2v_Iter o = last_given (fun x => match x with W_Iter v => Some v | _ => None end) 15 l /\
  w2v_LogBatch o = last_given (fun x => match x with W_LogBatch v => Some v | _ => None end) 100000 l /\
  w2v_MaxCount o = last_given (fun x => match x with W_MaxCount v => Some v | _ => None end) (-1) l /\
  w2v_MaxDepth o = last_given (fun x => match x with W_MaxDepth v => Some v | _ => None end) 100 l /\
  w2v_MinCount o = last_given (fun x => match x with W_MinCount v => Some v | _ => None end) 5 l /\
  w2v_MinLR o = last_given (fun x => match x with W_MinLR v => Some v | _ => None end) (fmul (f_dec 25 3) (f_dec 1 4)) l /\
  w2v_ModelType o = last_given (fun x => match x with W_Model v => Some v | _ => None end) "cbow"%string l /\
  w2v_NegativeSampleSize o = last_given (fun x => match x with W_NegativeSampleSize v => Some v | _ => None end) 5 l /\
  w2v_OptimizerType o = last_given (fun x => match x with W_Optimizer v => Some v | _ => None end) "ns"%string l /\
  w2v_SubsampleThreshold o = last_given (fun x => match x with W_SubsampleThreshold v => Some v | _ => None end) (f_dec 1 3) l /\
  w2v_ToLower o = last_given (fun x => match x with W_ToLower => Some true | _ => None end) false l /\
  w2v_UpdateLRBatch o = last_given (fun x => match x with W_UpdateLRBatch v => Some v | _ => None end) 100000 l /\
  w2v_Verbose o = last_given (fun x => match x with W_Verbose => Some true | _ => None end) false l /\
  w2v_Window o = last_given (fun x => match x with W_Window v => Some v | _ => None end) 5 l.
Proof.
  intros numcpu l o. repeat apply conj;
    match goal with
    | |- ?f _ = last_given ?s _ _ => exact (Options.fold_last w2v_apply f s ltac:(intros []; reflexivity) l (w2v_defaults numcpu))
    | |- ?f _ = _ => exact (Options.fold_const w2v_apply f ltac:(intros []; reflexivity) l (w2v_defaults numcpu))
    end.
Qed.
Print Assumptions C67_word2vec_options.

(** C67. glove: every field has the last value given for it, or its default. *)
Theorem C67_glove_options : forall numcpu (l : list glv_option),
  let o := glv_new numcpu l in
  glv_Alpha o = last_given (fun x => match x with G_Alpha v => Some v | _ => None end) (f_dec 75 2) l /\
  glv_BatchSize o = last_given (fun x => match x with G_BatchSize v => Some v | _ => None end) 10000 l /\
  glv_CountType o = "inc"%string /\
  glv_Dim o = last_given (fun x => match x with G_Dim v => Some v | _ => None end) 10 l /\
  glv_DocInMemory o = last_given (fun x => match x with G_DocInMemory => Some true | _ => None end) false l /\
  glv_Goroutines o = last_given (fun x => match x with G_Goroutines v => Some v | _ => None end) numcpu l /\
  glv_Initlr o = last_given (fun x => match x with G_Initlr v => Some v | _ => None end) (f_dec 25 3) l /\
  glv_Iter o = last_given (fun x => match x with G_Iter v => Some v | _ => None end) 15 l /\
  glv_LogBatch o = 100000 /\
  glv_MaxCount o = last_given (fun x => match x with G_MaxCount v => Some v | _ => None end) (-1) l /\
  glv_MinCount o = last_given (fun x => match x with G_MinCount v => Some v | _ => None end) 5 l /\
  glv_SolverType o = last_given (fun x => match x with G_Solver v => Some v | _ => None end) "sgd"%string l /\
  glv_SubsampleThreshold o = last_given (fun x => match x with G_SubsampleThreshold v => Some v | _ => None end) (f_dec 1 3) l /\
  glv_ToLower o = last_given (fun x => match x with G_ToLower => Some true | _ => None end) false l /\
  glv_Verbose o = last_given (fun x => match x with G_Verbose => Some true | _ => None end) false l /\
  glv_Window o = last_given (fun x => match x with G_Window v => Some v | _ => None end) 5 l /\
  glv_Xmax o = last_given (fun x => match x with G_Xmax v => Some v | _ => None end) 100 l.
Proof.
  intros numcpu l o. repeat apply conj;
    match goal with
    | |- ?f _ = last_given ?s _ _ => exact (Options.fold_last glv_apply f s ltac:(intros []; reflexivity) l (glv_defaults numcpu))
    | |- ?f _ = _ => exact (Options.fold_const glv_apply f ltac:(intros []; reflexivity) l (glv_defaults numcpu))
    end.
Qed.
Print Assumptions C67_glove_options.

(** C67. lexvec: every field has the last value given for it, or its default. *)
Theorem C67_lexvec_options : forall numcpu (l : list lex_option),
  let o := lex_new numcpu l in
  lex_BatchSize o = last_given (fun x => match x with L_BatchSize v => Some v | _ => None end) 10000 l /\
  lex_Dim o = last_given (fun x => match x with L_Dim v => Some v | _ => None end) 10 l /\
  lex_DocInMemory o = last_given (fun x => match x with L_DocInMemory => Some true | _ => None end) false l /\
  lex_Goroutines o = last_given (fun x => match x with L_Goroutines v => Some v | _ => None end) numcpu l /\
  lex_Initlr o = last_given (fun x => match x with L_Initlr v => Some v | _ => None end) (f_dec 25 3) l /\
  lex_Iter o = last_given (fun x => match x with L_Iter v => Some v | _ => None end) 15 l /\
  lex_LogBatch o = last_given (fun x => match x with L_LogBatch v => Some v | _ => None end) 100000 l /\
  lex_MaxCount o = last_given (fun x => match x with L_MaxCount v => Some v | _ => None end) (-1) l /\
  lex_MinCount o = last_given (fun x => match x with L_MinCount v => Some v | _ => None end) 5 l /\
  lex_MinLR o = last_given (fun x => match x with L_MinLR v => Some v | _ => None end) (fmul (f_dec 25 3) (f_dec 1 4)) l /\
  lex_NegativeSampleSize o = last_given (fun x => match x with L_NegativeSampleSize v => Some v | _ => None end) 5 l /\
  lex_RelationType o = last_given (fun x => match x with L_Relation v => Some v | _ => None end) "ppmi"%string l /\
  lex_Smooth o = last_given (fun x => match x with L_Smooth v => Some v | _ => None end) (f_dec 75 2) l /\
  lex_SubsampleThreshold o = last_given (fun x => match x with L_SubsampleThreshold v => Some v | _ => None end) (f_dec 1 3) l /\
  lex_ToLower o = last_given (fun x => match x with L_ToLower => Some true | _ => None end) false l /\
  lex_UpdateLRBatch o = last_given (fun x => match x with L_UpdateLRBatch v => Some v | _ => None end) 100000 l /\
  lex_Verbose o = last_given (fun x => match x with L_Verbose => Some true | _ => None end) false l /\
  lex_Window o = last_given (fun x => match x with L_Window v => Some v | _ => None end) 5 l.
Proof.
  intros numcpu l o. repeat apply conj;
    match goal with
    | |- ?f _ = last_given ?s _ _ => exact (Options.fold_last lex_apply f s ltac:(intros []; reflexivity) l (lex_defaults numcpu))
    | |- ?f _ = _ => exact (Options.fold_const lex_apply f ltac:(intros []; reflexivity) l (lex_defaults numcpu))
    end.
Qed.
Print Assumptions C67_lexvec_options.

(** Initlr does not move MinLR, and the last Dim counts. *)
Example C67_case :
  let o := w2v_new 4 [W_Dim 3; W_Initlr (f_of_Z 1); W_ToLower; W_Dim 7] in
  w2v_Dim o = 7 /\ w2v_ToLower o = true /\ w2v_Window o = 5 /\ w2v_MinLR o = fmul (f_dec 25 3) (f_dec 1 4).
Proof. repeat split. Qed.
