(** * C90: the command line and the functional options of New *)
From Coq Require Import Lia Strings.String.
From Verif.Properties Require Import P28_CommandLine.
From Verif.Lib Require Import Go F64.
From Verif.Spec Require Import CommandLine CommandMeaning.
From Verif.Model Require Import Options Flags.
From Verif.Proofs Require Flags Options.
Local Open Scope Z_scope.

(** --name=value for every setting. *)
Definition long_form (st : list (gostring * gostring)) : list gostring := map (fun '(n, v) => bs "--" ++ n ++ bs "=" ++ v) st.
Lemma long_form_line os st : Forall (fun p => exists o, In o os /\ bs (o_name o) = fst p) st -> command_line os (long_form st) st [].
Proof.
  induction st as [|[n v] st IH]; intros H; [constructor|]. apply Forall_cons_iff in H as [(o & Ho & E) H]. cbn [fst] in E. subst n. cbn [long_form map]. apply cl_equal; auto.
Qed.
Definition bool_text (b : bool) : gostring := if b then bs "true" else bs "false".
Lemma bool_text_ok b : parse_bool (bool_text b) = Some b.
Proof. destruct b; vm_compute; reflexivity. Qed.
Lemma as_string_bs t : as_string (bs t) = Some t.
Proof. unfold as_string, bs. rewrite string_of_list_byte_of_string. reflexivity. Qed.
Lemma known_names os (st : list (gostring * gostring)) : forallb (fun n => existsb (fun o => gseqb (bs (o_name o)) n) os) (map fst st) = true -> Forall (fun p => exists o, In o os /\ bs (o_name o) = fst p) st.
Proof.
  rewrite forallb_forall, Forall_forall. intros H p Hp. specialize (H _ (in_map fst st p Hp)). apply existsb_exists in H as (o & Ho & E).
  apply Flags.gseqb_spec in E. eauto.
Qed.
Local Ltac line_tac := apply long_form_line, known_names; cbn [map fst]; vm_compute; reflexivity.
Local Ltac accepts_tac :=
  let n := fresh "n" in let v := fresh "v" in let HI := fresh "HI" in let E := fresh "E" in
  intros n v HI;
  repeat (destruct HI as [E|HI]; [injection E as <- <-; eapply Flags.accepts_find; [vm_compute; reflexivity|];
    cbn [o_kind]; first [exact I|rewrite bool_text_ok; let H := fresh in intros H; discriminate H|congruence]|]); destruct HI.

(** C90. word2vec: the functional options of New reach every configuration. *)
Theorem C90_functional_word2vec : forall numcpu o, exists l, w2v_new numcpu l = o.
Proof.
  intros numcpu o. exists ([W_BatchSize (w2v_BatchSize o)] ++ [W_Dim (w2v_Dim o)] ++ (if w2v_DocInMemory o then [W_DocInMemory] else []) ++ [W_Goroutines (w2v_Goroutines o)] ++ [W_Initlr (w2v_Initlr o)] ++ [W_Iter (w2v_Iter o)] ++ [W_LogBatch (w2v_LogBatch o)] ++ [W_MaxCount (w2v_MaxCount o)] ++ [W_MaxDepth (w2v_MaxDepth o)] ++ [W_MinCount (w2v_MinCount o)] ++ [W_MinLR (w2v_MinLR o)] ++ [W_Model (w2v_ModelType o)] ++ [W_NegativeSampleSize (w2v_NegativeSampleSize o)] ++ [W_Optimizer (w2v_OptimizerType o)] ++ [W_SubsampleThreshold (w2v_SubsampleThreshold o)] ++ (if w2v_ToLower o then [W_ToLower] else []) ++ [W_UpdateLRBatch (w2v_UpdateLRBatch o)] ++ (if w2v_Verbose o then [W_Verbose] else []) ++ [W_Window (w2v_Window o)]).
  unfold w2v_new, w2v_defaults. rewrite ?fold_left_app.
  destruct o as [x0 x1 x2 x3 x4 x5 x6 x7 x8 x9 x10 x11 x12 x13 x14 x15 x16 x17 x18]. cbn [w2v_BatchSize w2v_Dim w2v_DocInMemory w2v_Goroutines w2v_Initlr w2v_Iter w2v_LogBatch w2v_MaxCount w2v_MaxDepth w2v_MinCount w2v_MinLR w2v_ModelType w2v_NegativeSampleSize w2v_OptimizerType w2v_SubsampleThreshold w2v_ToLower w2v_UpdateLRBatch w2v_Verbose w2v_Window].
  repeat match goal with |- context [if ?b then _ else _] => is_var b; destruct b end; cbn [fold_left w2v_apply w2v_BatchSize w2v_Dim w2v_DocInMemory w2v_Goroutines w2v_Initlr w2v_Iter w2v_LogBatch w2v_MaxCount w2v_MaxDepth w2v_MinCount w2v_MinLR w2v_ModelType w2v_NegativeSampleSize w2v_OptimizerType w2v_SubsampleThreshold w2v_ToLower w2v_UpdateLRBatch w2v_Verbose w2v_Window]; reflexivity.
Qed.
Print Assumptions C90_functional_word2vec.

(** C90. word2vec: the command line reaches every configuration whose numbers can be written. *)
Theorem C90_flags_word2vec : forall pint pfloat numcpu o,
  Forall (fun z => exists v, pint v = Some z) [w2v_BatchSize o; w2v_Dim o; w2v_Goroutines o; w2v_Iter o; w2v_LogBatch o; w2v_MaxCount o; w2v_MaxDepth o; w2v_MinCount o; w2v_NegativeSampleSize o; w2v_UpdateLRBatch o; w2v_Window o] ->
  Forall (fun x => exists v, pfloat v = Some x) [w2v_Initlr o; w2v_MinLR o; w2v_SubsampleThreshold o] ->
  exists args s, w2v_cmd_vars pint pfloat numcpu args = Ret (s, []) /\ tv_opts s = o.
Proof.
  intros pint pfloat numcpu o HI HF.
  apply Forall_cons_iff in HI as [(i0 & Ei0) HI].
  apply Forall_cons_iff in HI as [(i1 & Ei1) HI].
  apply Forall_cons_iff in HI as [(i2 & Ei2) HI].
  apply Forall_cons_iff in HI as [(i3 & Ei3) HI].
  apply Forall_cons_iff in HI as [(i4 & Ei4) HI].
  apply Forall_cons_iff in HI as [(i5 & Ei5) HI].
  apply Forall_cons_iff in HI as [(i6 & Ei6) HI].
  apply Forall_cons_iff in HI as [(i7 & Ei7) HI].
  apply Forall_cons_iff in HI as [(i8 & Ei8) HI].
  apply Forall_cons_iff in HI as [(i9 & Ei9) HI].
  apply Forall_cons_iff in HI as [(i10 & Ei10) HI].
  apply Forall_cons_iff in HF as [(f0 & Ef0) HF].
  apply Forall_cons_iff in HF as [(f1 & Ef1) HF].
  apply Forall_cons_iff in HF as [(f2 & Ef2) HF].
  set (st := [(bs "batch", i0); (bs "dim", i1); (bs "goroutines", i2); (bs "in-memory", bool_text (w2v_DocInMemory o)); (bs "initlr", f0); (bs "iter", i3); (bs "log-batch", i4); (bs "max-count", i5); (bs "max-depth", i6); (bs "min-count", i7); (bs "min-lr", f1); (bs "model", bs (w2v_ModelType o)); (bs "sample", i8); (bs "optimizer", bs (w2v_OptimizerType o)); (bs "threshold", f2); (bs "to-lower", bool_text (w2v_ToLower o)); (bs "update-lr-batch", i9); (bs "verbose", bool_text (w2v_Verbose o)); (bs "window", i10)]).
  exists (long_form st), (TrainVars (bs "example/input.txt") (bs "example/word_vectors.txt") false "single"%string o false). split; [|reflexivity].
  apply C89_word2vec. exists st. split; [subst st; line_tac|]. split; [subst st; accepts_tac|].
  unfold common_meaning, word2vec_meaning. repeat match goal with |- _ /\ _ => split end; subst st;
    cbv [given last_value]; Flags.gs; cbn [tv_opts tv_input tv_output tv_prof tv_vec_type tv_help]; first [assumption|apply bool_text_ok|apply as_string_bs|reflexivity].
Qed.
Print Assumptions C90_flags_word2vec.

(** C90. glove: they reach every configuration with the default CountType and LogBatch, and no other. *)
Theorem C90_functional_glove : forall numcpu o, (exists l, glv_new numcpu l = o) <-> glv_CountType o = "inc"%string /\ glv_LogBatch o = 100000.
Proof.
  intros numcpu o. split.
  - intros (l & <-). split.
    + exact (Options.fold_const glv_apply glv_CountType ltac:(intros []; reflexivity) l (glv_defaults numcpu)).
    + exact (Options.fold_const glv_apply glv_LogBatch ltac:(intros []; reflexivity) l (glv_defaults numcpu)).
  - intros [E1 E2]. exists ([G_Alpha (glv_Alpha o)] ++ [G_BatchSize (glv_BatchSize o)] ++ [G_Dim (glv_Dim o)] ++ (if glv_DocInMemory o then [G_DocInMemory] else []) ++ [G_Goroutines (glv_Goroutines o)] ++ [G_Initlr (glv_Initlr o)] ++ [G_Iter (glv_Iter o)] ++ [G_MaxCount (glv_MaxCount o)] ++ [G_MinCount (glv_MinCount o)] ++ [G_Solver (glv_SolverType o)] ++ [G_SubsampleThreshold (glv_SubsampleThreshold o)] ++ (if glv_ToLower o then [G_ToLower] else []) ++ (if glv_Verbose o then [G_Verbose] else []) ++ [G_Window (glv_Window o)] ++ [G_Xmax (glv_Xmax o)]).
    unfold glv_new, glv_defaults. rewrite ?fold_left_app.
    destruct o as [x0 x1 x2 x3 x4 x5 x6 x7 x8 x9 x10 x11 x12 x13 x14 x15 x16]. cbn [glv_Alpha glv_BatchSize glv_CountType glv_Dim glv_DocInMemory glv_Goroutines glv_Initlr glv_Iter glv_LogBatch glv_MaxCount glv_MinCount glv_SolverType glv_SubsampleThreshold glv_ToLower glv_Verbose glv_Window glv_Xmax] in E1, E2 |- *. subst.
    repeat match goal with |- context [if ?b then _ else _] => is_var b; destruct b end; cbn [fold_left glv_apply glv_Alpha glv_BatchSize glv_CountType glv_Dim glv_DocInMemory glv_Goroutines glv_Initlr glv_Iter glv_LogBatch glv_MaxCount glv_MinCount glv_SolverType glv_SubsampleThreshold glv_ToLower glv_Verbose glv_Window glv_Xmax]; reflexivity.
Qed.
Print Assumptions C90_functional_glove.

(** C90. glove: the command line reaches every configuration whose numbers can be written. *)
Theorem C90_flags_glove : forall pint pfloat numcpu o,
  Forall (fun z => exists v, pint v = Some z) [glv_BatchSize o; glv_Dim o; glv_Goroutines o; glv_Iter o; glv_LogBatch o; glv_MaxCount o; glv_MinCount o; glv_Window o; glv_Xmax o] ->
  Forall (fun x => exists v, pfloat v = Some x) [glv_Alpha o; glv_Initlr o; glv_SubsampleThreshold o] ->
  exists args s, glv_cmd_vars pint pfloat numcpu args = Ret (s, []) /\ tv_opts s = o.
Proof.
  intros pint pfloat numcpu o HI HF.
  apply Forall_cons_iff in HI as [(i0 & Ei0) HI].
  apply Forall_cons_iff in HI as [(i1 & Ei1) HI].
  apply Forall_cons_iff in HI as [(i2 & Ei2) HI].
  apply Forall_cons_iff in HI as [(i3 & Ei3) HI].
  apply Forall_cons_iff in HI as [(i4 & Ei4) HI].
  apply Forall_cons_iff in HI as [(i5 & Ei5) HI].
  apply Forall_cons_iff in HI as [(i6 & Ei6) HI].
  apply Forall_cons_iff in HI as [(i7 & Ei7) HI].
  apply Forall_cons_iff in HI as [(i8 & Ei8) HI].
  apply Forall_cons_iff in HF as [(f0 & Ef0) HF].
  apply Forall_cons_iff in HF as [(f1 & Ef1) HF].
  apply Forall_cons_iff in HF as [(f2 & Ef2) HF].
  set (st := [(bs "alpha", f0); (bs "batch", i0); (bs "cnt", bs (glv_CountType o)); (bs "dim", i1); (bs "goroutines", i2); (bs "in-memory", bool_text (glv_DocInMemory o)); (bs "initlr", f1); (bs "iter", i3); (bs "log-batch", i4); (bs "max-count", i5); (bs "min-count", i6); (bs "solver", bs (glv_SolverType o)); (bs "threshold", f2); (bs "to-lower", bool_text (glv_ToLower o)); (bs "verbose", bool_text (glv_Verbose o)); (bs "window", i7); (bs "xmax", i8)]).
  exists (long_form st), (TrainVars (bs "example/input.txt") (bs "example/word_vectors.txt") false "single"%string o false). split; [|reflexivity].
  apply C89_glove. exists st. split; [subst st; line_tac|]. split; [subst st; accepts_tac|].
  unfold common_meaning, glove_meaning. repeat match goal with |- _ /\ _ => split end; subst st;
    cbv [given last_value]; Flags.gs; cbn [tv_opts tv_input tv_output tv_prof tv_vec_type tv_help]; first [assumption|apply bool_text_ok|apply as_string_bs|reflexivity].
Qed.
Print Assumptions C90_flags_glove.

(** C90. lexvec: the functional options of New reach every configuration. *)
Theorem C90_functional_lexvec : forall numcpu o, exists l, lex_new numcpu l = o.
Proof.
  intros numcpu o. exists ([L_BatchSize (lex_BatchSize o)] ++ [L_Dim (lex_Dim o)] ++ (if lex_DocInMemory o then [L_DocInMemory] else []) ++ [L_Goroutines (lex_Goroutines o)] ++ [L_Initlr (lex_Initlr o)] ++ [L_Iter (lex_Iter o)] ++ [L_LogBatch (lex_LogBatch o)] ++ [L_MaxCount (lex_MaxCount o)] ++ [L_MinCount (lex_MinCount o)] ++ [L_MinLR (lex_MinLR o)] ++ [L_NegativeSampleSize (lex_NegativeSampleSize o)] ++ [L_Relation (lex_RelationType o)] ++ [L_Smooth (lex_Smooth o)] ++ [L_SubsampleThreshold (lex_SubsampleThreshold o)] ++ (if lex_ToLower o then [L_ToLower] else []) ++ [L_UpdateLRBatch (lex_UpdateLRBatch o)] ++ (if lex_Verbose o then [L_Verbose] else []) ++ [L_Window (lex_Window o)]).
  unfold lex_new, lex_defaults. rewrite ?fold_left_app.
  destruct o as [x0 x1 x2 x3 x4 x5 x6 x7 x8 x9 x10 x11 x12 x13 x14 x15 x16 x17]. cbn [lex_BatchSize lex_Dim lex_DocInMemory lex_Goroutines lex_Initlr lex_Iter lex_LogBatch lex_MaxCount lex_MinCount lex_MinLR lex_NegativeSampleSize lex_RelationType lex_Smooth lex_SubsampleThreshold lex_ToLower lex_UpdateLRBatch lex_Verbose lex_Window].
  repeat match goal with |- context [if ?b then _ else _] => is_var b; destruct b end; cbn [fold_left lex_apply lex_BatchSize lex_Dim lex_DocInMemory lex_Goroutines lex_Initlr lex_Iter lex_LogBatch lex_MaxCount lex_MinCount lex_MinLR lex_NegativeSampleSize lex_RelationType lex_Smooth lex_SubsampleThreshold lex_ToLower lex_UpdateLRBatch lex_Verbose lex_Window]; reflexivity.
Qed.
Print Assumptions C90_functional_lexvec.

(** C90. lexvec: the command line reaches every configuration whose numbers can be written. *)
Theorem C90_flags_lexvec : forall pint pfloat numcpu o,
  Forall (fun z => exists v, pint v = Some z) [lex_BatchSize o; lex_Dim o; lex_Goroutines o; lex_Iter o; lex_LogBatch o; lex_MaxCount o; lex_MinCount o; lex_NegativeSampleSize o; lex_UpdateLRBatch o; lex_Window o] ->
  Forall (fun x => exists v, pfloat v = Some x) [lex_Initlr o; lex_MinLR o; lex_Smooth o; lex_SubsampleThreshold o] ->
  exists args s, lex_cmd_vars pint pfloat numcpu args = Ret (s, []) /\ tv_opts s = o.
Proof.
  intros pint pfloat numcpu o HI HF.
  apply Forall_cons_iff in HI as [(i0 & Ei0) HI].
  apply Forall_cons_iff in HI as [(i1 & Ei1) HI].
  apply Forall_cons_iff in HI as [(i2 & Ei2) HI].
  apply Forall_cons_iff in HI as [(i3 & Ei3) HI].
  apply Forall_cons_iff in HI as [(i4 & Ei4) HI].
  apply Forall_cons_iff in HI as [(i5 & Ei5) HI].
  apply Forall_cons_iff in HI as [(i6 & Ei6) HI].
  apply Forall_cons_iff in HI as [(i7 & Ei7) HI].
  apply Forall_cons_iff in HI as [(i8 & Ei8) HI].
  apply Forall_cons_iff in HI as [(i9 & Ei9) HI].
  apply Forall_cons_iff in HF as [(f0 & Ef0) HF].
  apply Forall_cons_iff in HF as [(f1 & Ef1) HF].
  apply Forall_cons_iff in HF as [(f2 & Ef2) HF].
  apply Forall_cons_iff in HF as [(f3 & Ef3) HF].
  set (st := [(bs "batch", i0); (bs "dim", i1); (bs "goroutines", i2); (bs "in-memory", bool_text (lex_DocInMemory o)); (bs "initlr", f0); (bs "iter", i3); (bs "log-batch", i4); (bs "max-count", i5); (bs "min-count", i6); (bs "min-lr", f1); (bs "sample", i7); (bs "rel", bs (lex_RelationType o)); (bs "smooth", f2); (bs "threshold", f3); (bs "to-lower", bool_text (lex_ToLower o)); (bs "update-lr-batch", i8); (bs "verbose", bool_text (lex_Verbose o)); (bs "window", i9)]).
  exists (long_form st), (TrainVars (bs "example/input.txt") (bs "example/word_vectors.txt") false "single"%string o false). split; [|reflexivity].
  apply C89_lexvec. exists st. split; [subst st; line_tac|]. split; [subst st; accepts_tac|].
  unfold common_meaning, lexvec_meaning. repeat match goal with |- _ /\ _ => split end; subst st;
    cbv [given last_value]; Flags.gs; cbn [tv_opts tv_input tv_output tv_prof tv_vec_type tv_help]; first [assumption|apply bool_text_ok|apply as_string_bs|reflexivity].
Qed.
Print Assumptions C90_flags_lexvec.

(** Parsers that can write every number: the hypotheses of C90 hold for every configuration. *)
Example C90_case : exists (pint : gostring -> option Z), forall l : list Z, Forall (fun z => exists v, pint v = Some z) l.
Proof.
  exists (fun v => Some (match v with x2d :: t => - Z.of_nat (length t) | _ => Z.of_nat (length v) end)). intros l. apply Forall_forall. intros z _.
  destruct (Z.le_gt_cases 0 z) as [H|H].
  - exists (repeat x61 (Z.to_nat z)). f_equal. destruct (Z.to_nat z) as [|n] eqn:E; [cbn; lia|]. cbn [repeat]. cbn [length]. rewrite repeat_length. lia.
  - exists (x2d :: repeat x61 (Z.to_nat (- z))). f_equal. rewrite repeat_length. lia.
Qed.
