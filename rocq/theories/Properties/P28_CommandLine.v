(** * C89, C90: the command line

    [command_line os args settings words] (Spec/CommandLine.v) is the syntax: which options the arguments
    set, in which order, and which arguments are other words. [*_meaning] (Spec/CommandMeaning.v) says which
    option determines which value. [accepts]: the value can be read as the kind of the option. *)
From Coq Require Import Lia.
From Verif.Lib Require Import Go F64.
From Verif.Spec Require Import CommandLine CommandMeaning.
From Verif.Model Require Import Options Flags.
From Verif.Proofs Require Flags.
Local Open Scope Z_scope.

Local Ltac reg_goal :=
  split; [repeat split; cbn [fst fl_name fl_short fl_switch o_name o_short o_kind int_var float_var string_var bool_var]; intros; first [reflexivity|discriminate]|
          let v := fresh "v" in let s := fresh "s" in intros v s; cbn [fst fl_set o_kind Flags.value_ok int_var float_var string_var bool_var];
          first [destruct (_ v); cbn [option_map]; split; intros; discriminate
                |match goal with |- option_map _ ?x <> None <-> _ => destruct x; cbn [option_map]; split; intros; congruence end
                |split; intros; [exact I|discriminate]]].
Local Ltac regs := repeat (apply Forall2_cons; [reg_goal|]); apply Forall2_nil.
Local Ltac keep := first [apply Flags.given_same; assumption | apply Flags.given_same; reflexivity | apply Flags.given_other; [vm_compute; reflexivity|assumption]].
Local Ltac keep_all := repeat match goal with |- _ /\ _ => split end; keep.
Local Ltac set_step :=
  let st := fresh "st" in let v := fresh "v" in let s := fresh "s" in let s' := fresh "s'" in let HM := fresh "HM" in let E := fresh "E" in
  intros st v s s' HM E; cbn [fst fl_set fl_name int_var float_var string_var bool_var] in E |- *;
  try match type of E with option_map _ (?p v) = Some _ => let Ev := fresh "Ev" in destruct (p v) eqn:Ev; cbn [option_map] in E; [|discriminate E] end;
  injection E as <-; repeat match goal with H : _ /\ _ |- _ => destruct H end.

Definition word2vec_cmd_meaning (pint : gostring -> option Z) (pfloat : gostring -> option f64) (numcpu : Z)
  (settings : list (gostring * gostring)) (s : train_vars w2v_opts) : Prop :=
  common_meaning settings s /\ word2vec_meaning pint pfloat numcpu settings (tv_opts s).

Lemma word2vec_unique pint pfloat numcpu st s s' : word2vec_cmd_meaning pint pfloat numcpu st s -> word2vec_cmd_meaning pint pfloat numcpu st s' -> s = s'.
Proof.
  unfold word2vec_cmd_meaning, common_meaning, word2vec_meaning. intros H H'. repeat match goal with H : _ /\ _ |- _ => destruct H end.
  repeat match goal with A : given ?p ?st ?n ?d ?x, B : given ?p ?st ?n ?d ?y |- _ => pose proof (Flags.given_unique p st n d x y A B); clear A B end.
  destruct s as [a b c d [] e], s' as [a' b' c' d' [] e']. cbn in *. subst. reflexivity.
Qed.

Lemma word2vec_regs pint pfloat numcpu : Forall2 (Flags.reg_ok pint pfloat) (common_flags ++ w2v_load_for_cmd pint pfloat numcpu ++ help_flag) word2vec_options.
Proof. cbn [common_flags w2v_load_for_cmd help_flag app]. regs. Qed.

Lemma word2vec_step pint pfloat numcpu : Forall (fun r => forall st v s s', word2vec_cmd_meaning pint pfloat numcpu st s -> fl_set (fst r) v s = Some s' ->
  word2vec_cmd_meaning pint pfloat numcpu (st ++ [(fl_name (fst r), v)]) s') (common_flags ++ w2v_load_for_cmd pint pfloat numcpu ++ help_flag).
Proof.
  cbn [common_flags w2v_load_for_cmd help_flag app]. unfold word2vec_cmd_meaning, common_meaning, word2vec_meaning.
  repeat (apply Forall_cons; [set_step; keep_all|]). apply Forall_nil.
Qed.

(** C89. wego word2vec: the command runs (or prints its help, if asked to) exactly when the arguments follow the syntax and
    every value can be read; then every option has the value given last, or its default. *)
Theorem C89_word2vec : forall pint pfloat numcpu args s words,
  w2v_cmd_vars pint pfloat numcpu args = Ret (s, words) <->
  exists settings, command_line word2vec_options args settings words /\
    (forall n v, In (n, v) settings -> accepts word2vec_options pint pfloat parse_bool n v) /\
    common_meaning settings s /\ word2vec_meaning pint pfloat numcpu settings (tv_opts s).
Proof.
  intros pint pfloat numcpu args s words. unfold w2v_cmd_vars.
  apply (Flags.command_spec _ _ _ pint pfloat (word2vec_cmd_meaning pint pfloat numcpu)).
  - apply word2vec_regs.
  - lazy. reflexivity.
  - lazy. reflexivity.
  - unfold word2vec_cmd_meaning, common_meaning, word2vec_meaning. repeat split.
  - apply word2vec_step.
  - apply word2vec_unique.
Qed.
Print Assumptions C89_word2vec.

Theorem C89_word2vec_runs : forall pint pfloat numcpu args settings words,
  command_line word2vec_options args settings words ->
  (forall n v, In (n, v) settings -> accepts word2vec_options pint pfloat parse_bool n v) ->
  exists s, w2v_cmd_vars pint pfloat numcpu args = Ret (s, words) /\
    common_meaning settings s /\ word2vec_meaning pint pfloat numcpu settings (tv_opts s).
Proof.
  intros pint pfloat numcpu args settings words HC HA. unfold w2v_cmd_vars.
  apply (Flags.command_total _ _ word2vec_options pint pfloat (word2vec_cmd_meaning pint pfloat numcpu));
    [apply word2vec_regs|lazy; reflexivity|lazy; reflexivity|unfold word2vec_cmd_meaning, common_meaning, word2vec_meaning; repeat split|apply word2vec_step|apply word2vec_unique|exact HC|exact HA].
Qed.
Print Assumptions C89_word2vec_runs.

Definition glove_cmd_meaning (pint : gostring -> option Z) (pfloat : gostring -> option f64) (numcpu : Z)
  (settings : list (gostring * gostring)) (s : train_vars glv_opts) : Prop :=
  common_meaning settings s /\ glove_meaning pint pfloat numcpu settings (tv_opts s).

Lemma glove_unique pint pfloat numcpu st s s' : glove_cmd_meaning pint pfloat numcpu st s -> glove_cmd_meaning pint pfloat numcpu st s' -> s = s'.
Proof.
  unfold glove_cmd_meaning, common_meaning, glove_meaning. intros H H'. repeat match goal with H : _ /\ _ |- _ => destruct H end.
  repeat match goal with A : given ?p ?st ?n ?d ?x, B : given ?p ?st ?n ?d ?y |- _ => pose proof (Flags.given_unique p st n d x y A B); clear A B end.
  destruct s as [a b c d [] e], s' as [a' b' c' d' [] e']. cbn in *. subst. reflexivity.
Qed.

Lemma glove_regs pint pfloat numcpu : Forall2 (Flags.reg_ok pint pfloat) (common_flags ++ glv_load_for_cmd pint pfloat numcpu ++ help_flag) glove_options.
Proof. cbn [common_flags glv_load_for_cmd help_flag app]. regs. Qed.

Lemma glove_step pint pfloat numcpu : Forall (fun r => forall st v s s', glove_cmd_meaning pint pfloat numcpu st s -> fl_set (fst r) v s = Some s' ->
  glove_cmd_meaning pint pfloat numcpu (st ++ [(fl_name (fst r), v)]) s') (common_flags ++ glv_load_for_cmd pint pfloat numcpu ++ help_flag).
Proof.
  cbn [common_flags glv_load_for_cmd help_flag app]. unfold glove_cmd_meaning, common_meaning, glove_meaning.
  repeat (apply Forall_cons; [set_step; keep_all|]). apply Forall_nil.
Qed.

(** C89. wego glove: the command runs (or prints its help, if asked to) exactly when the arguments follow the syntax and
    every value can be read; then every option has the value given last, or its default. *)
Theorem C89_glove : forall pint pfloat numcpu args s words,
  glv_cmd_vars pint pfloat numcpu args = Ret (s, words) <->
  exists settings, command_line glove_options args settings words /\
    (forall n v, In (n, v) settings -> accepts glove_options pint pfloat parse_bool n v) /\
    common_meaning settings s /\ glove_meaning pint pfloat numcpu settings (tv_opts s).
Proof.
  intros pint pfloat numcpu args s words. unfold glv_cmd_vars.
  apply (Flags.command_spec _ _ _ pint pfloat (glove_cmd_meaning pint pfloat numcpu)).
  - apply glove_regs.
  - lazy. reflexivity.
  - lazy. reflexivity.
  - unfold glove_cmd_meaning, common_meaning, glove_meaning. repeat split.
  - apply glove_step.
  - apply glove_unique.
Qed.
Print Assumptions C89_glove.

Theorem C89_glove_runs : forall pint pfloat numcpu args settings words,
  command_line glove_options args settings words ->
  (forall n v, In (n, v) settings -> accepts glove_options pint pfloat parse_bool n v) ->
  exists s, glv_cmd_vars pint pfloat numcpu args = Ret (s, words) /\
    common_meaning settings s /\ glove_meaning pint pfloat numcpu settings (tv_opts s).
Proof.
  intros pint pfloat numcpu args settings words HC HA. unfold glv_cmd_vars.
  apply (Flags.command_total _ _ glove_options pint pfloat (glove_cmd_meaning pint pfloat numcpu));
    [apply glove_regs|lazy; reflexivity|lazy; reflexivity|unfold glove_cmd_meaning, common_meaning, glove_meaning; repeat split|apply glove_step|apply glove_unique|exact HC|exact HA].
Qed.
Print Assumptions C89_glove_runs.

Definition lexvec_cmd_meaning (pint : gostring -> option Z) (pfloat : gostring -> option f64) (numcpu : Z)
  (settings : list (gostring * gostring)) (s : train_vars lex_opts) : Prop :=
  common_meaning settings s /\ lexvec_meaning pint pfloat numcpu settings (tv_opts s).

Lemma lexvec_unique pint pfloat numcpu st s s' : lexvec_cmd_meaning pint pfloat numcpu st s -> lexvec_cmd_meaning pint pfloat numcpu st s' -> s = s'.
Proof.
  unfold lexvec_cmd_meaning, common_meaning, lexvec_meaning. intros H H'. repeat match goal with H : _ /\ _ |- _ => destruct H end.
  repeat match goal with A : given ?p ?st ?n ?d ?x, B : given ?p ?st ?n ?d ?y |- _ => pose proof (Flags.given_unique p st n d x y A B); clear A B end.
  destruct s as [a b c d [] e], s' as [a' b' c' d' [] e']. cbn in *. subst. reflexivity.
Qed.

Lemma lexvec_regs pint pfloat numcpu : Forall2 (Flags.reg_ok pint pfloat) (common_flags ++ lex_load_for_cmd pint pfloat numcpu ++ help_flag) lexvec_options.
Proof. cbn [common_flags lex_load_for_cmd help_flag app]. regs. Qed.

Lemma lexvec_step pint pfloat numcpu : Forall (fun r => forall st v s s', lexvec_cmd_meaning pint pfloat numcpu st s -> fl_set (fst r) v s = Some s' ->
  lexvec_cmd_meaning pint pfloat numcpu (st ++ [(fl_name (fst r), v)]) s') (common_flags ++ lex_load_for_cmd pint pfloat numcpu ++ help_flag).
Proof.
  cbn [common_flags lex_load_for_cmd help_flag app]. unfold lexvec_cmd_meaning, common_meaning, lexvec_meaning.
  repeat (apply Forall_cons; [set_step; keep_all|]). apply Forall_nil.
Qed.

(** C89. wego lexvec: the command runs (or prints its help, if asked to) exactly when the arguments follow the syntax and
    every value can be read; then every option has the value given last, or its default. *)
Theorem C89_lexvec : forall pint pfloat numcpu args s words,
  lex_cmd_vars pint pfloat numcpu args = Ret (s, words) <->
  exists settings, command_line lexvec_options args settings words /\
    (forall n v, In (n, v) settings -> accepts lexvec_options pint pfloat parse_bool n v) /\
    common_meaning settings s /\ lexvec_meaning pint pfloat numcpu settings (tv_opts s).
Proof.
  intros pint pfloat numcpu args s words. unfold lex_cmd_vars.
  apply (Flags.command_spec _ _ _ pint pfloat (lexvec_cmd_meaning pint pfloat numcpu)).
  - apply lexvec_regs.
  - lazy. reflexivity.
  - lazy. reflexivity.
  - unfold lexvec_cmd_meaning, common_meaning, lexvec_meaning. repeat split.
  - apply lexvec_step.
  - apply lexvec_unique.
Qed.
Print Assumptions C89_lexvec.

Theorem C89_lexvec_runs : forall pint pfloat numcpu args settings words,
  command_line lexvec_options args settings words ->
  (forall n v, In (n, v) settings -> accepts lexvec_options pint pfloat parse_bool n v) ->
  exists s, lex_cmd_vars pint pfloat numcpu args = Ret (s, words) /\
    common_meaning settings s /\ lexvec_meaning pint pfloat numcpu settings (tv_opts s).
Proof.
  intros pint pfloat numcpu args settings words HC HA. unfold lex_cmd_vars.
  apply (Flags.command_total _ _ lexvec_options pint pfloat (lexvec_cmd_meaning pint pfloat numcpu));
    [apply lexvec_regs|lazy; reflexivity|lazy; reflexivity|unfold lexvec_cmd_meaning, common_meaning, lexvec_meaning; repeat split|apply lexvec_step|apply lexvec_unique|exact HC|exact HA].
Qed.
Print Assumptions C89_lexvec_runs.

Lemma query_regs pint pfloat : Forall2 (Flags.reg_ok pint pfloat) (query_flags pint) query_options.
Proof. unfold query_flags, query_options. regs. Qed.
Lemma query_step pint : Forall (fun r => forall st v s s', query_meaning pint st s -> fl_set (fst r) v s = Some s' ->
  query_meaning pint (st ++ [(fl_name (fst r), v)]) s') (query_flags pint).
Proof. unfold query_flags, query_meaning. repeat (apply Forall_cons; [set_step; keep_all|]). apply Forall_nil. Qed.
Lemma query_unique pint st s s' : query_meaning pint st s -> query_meaning pint st s' -> s = s'.
Proof.
  destruct s, s'. unfold query_meaning. cbn. intros H H'. repeat match goal with H : _ /\ _ |- _ => destruct H end.
  repeat match goal with A : given ?p ?st ?n ?d ?x, B : given ?p ?st ?n ?d ?y |- _ => pose proof (Flags.given_unique p st n d x y A B); clear A B end.
  subst. reflexivity.
Qed.

(** C89. wego query and wego console. *)
Theorem C89_query : forall pint pfloat args s words,
  query_cmd_vars pint args = Ret (s, words) <->
  exists settings, command_line query_options args settings words /\
    (forall n v, In (n, v) settings -> accepts query_options pint pfloat parse_bool n v) /\ query_meaning pint settings s.
Proof.
  intros pint pfloat args s words. unfold query_cmd_vars.
  apply (Flags.command_spec _ _ _ pint pfloat (query_meaning pint));
    [apply query_regs|lazy; reflexivity|lazy; reflexivity|unfold query_meaning; repeat split|apply query_step|apply query_unique].
Qed.
Print Assumptions C89_query.

Theorem C89_query_runs : forall pint pfloat args settings words,
  command_line query_options args settings words ->
  (forall n v, In (n, v) settings -> accepts query_options pint pfloat parse_bool n v) ->
  exists s, query_cmd_vars pint args = Ret (s, words) /\ query_meaning pint settings s.
Proof.
  intros pint pfloat args settings words HC HA. unfold query_cmd_vars.
  apply (Flags.command_total _ _ query_options pint pfloat (query_meaning pint));
    [apply query_regs|lazy; reflexivity|lazy; reflexivity|unfold query_meaning; repeat split|apply query_step|apply query_unique|exact HC|exact HA].
Qed.
Print Assumptions C89_query_runs.

(** C89. Whatever the arguments, parsing them never panics: there are no two options with the same name
    or letter. *)
Theorem C89_never_panics : forall pint pfloat numcpu args,
  w2v_cmd_vars pint pfloat numcpu args <> Panic /\ glv_cmd_vars pint pfloat numcpu args <> Panic /\
  lex_cmd_vars pint pfloat numcpu args <> Panic /\ query_cmd_vars pint args <> Panic.
Proof. intros. repeat split; apply Flags.command_no_panic; lazy; reflexivity. Qed.
Print Assumptions C89_never_panics.

(** C89. Without arguments: the default options. *)
Theorem C89_defaults : forall pint pfloat numcpu,
  let vars (T : Type) (o : T) := TrainVars (bs "example/input.txt") (bs "example/word_vectors.txt") false "single" o false in
  w2v_cmd_vars pint pfloat numcpu [] = Ret (vars _ (w2v_defaults numcpu), []) /\
  glv_cmd_vars pint pfloat numcpu [] = Ret (vars _ (glv_defaults numcpu), []) /\
  lex_cmd_vars pint pfloat numcpu [] = Ret (vars _ (lex_defaults numcpu), []) /\
  query_cmd_vars pint [] = Ret (QueryVars (bs "example/word_vectors.txt") 10 false, []).
Proof.
  intros pint pfloat numcpu vars.
  split; [|split; [|split]]; [apply C89_word2vec|apply C89_glove|apply C89_lexvec|apply (C89_query pint pfloat)];
    exists []; (split; [constructor|]); (split; [intros n v []|]); repeat split.
Qed.
Print Assumptions C89_defaults.

(** wego word2vec -d5 --model skipgram --verbose x -i=in *)
Example C89_case : forall pfloat,
  let pint v := if gseqb v (bs "5") then Some 5 else None in
  w2v_cmd_vars pint pfloat 4 [bs "-d5"; bs "--model"; bs "skipgram"; bs "--verbose"; bs "x"; bs "-i=in"] =
  Ret (TrainVars (bs "in") (bs "example/word_vectors.txt") false "single"%string (W2vOpts 10000 5 false 4 (f_dec 25 3) 15 100000 (-1) 100 5 (fmul (f_dec 25 3) (f_dec 1 4)) "skipgram"%string 5 "ns"%string (f_dec 1 3) false 100000 true 5) false, [bs "x"]).
Proof.
  intros pfloat pint. apply C89_word2vec.
  exists [(bs "dim", bs "5"); (bs "model", bs "skipgram"); (bs "verbose", bs "true"); (bs "input", bs "in")]. split; [|split].
  - apply (cl_letters word2vec_options (bs "d5") _ [(bs "dim", bs "5")] [bs "--model"; bs "skipgram"; bs "--verbose"; bs "x"; bs "-i=in"]);
      [discriminate|intros t E; discriminate E| |].
    + apply (l_attached word2vec_options (Opt "dim" (Some x64) Int) x64 (bs "5"));
        [repeat (first [left; reflexivity|right])|reflexivity|discriminate|discriminate|intros (b & t & E); discriminate E|intros (t & E); discriminate E].
    + apply (cl_next word2vec_options (Opt "model" None Text)); [repeat (first [left; reflexivity|right])|discriminate|].
      apply (cl_switch word2vec_options (Opt "verbose" None Switch)); [repeat (first [left; reflexivity|right])|reflexivity|].
      apply cl_word; [right; intros t E; discriminate E|].
      apply (cl_letters word2vec_options (bs "i=in") [] [(bs "input", bs "in")] [] [] []); [discriminate|intros t E; discriminate E| |constructor].
      apply (l_equal word2vec_options (Opt "input" (Some x69) Text) x69 (bs "in")); [left; reflexivity|reflexivity|discriminate].
  - intros n v [E|[E|[E|[E|[]]]]]; injection E as <- <-; (eapply Flags.accepts_find; [vm_compute; reflexivity|]);
      cbn [o_kind]; first [exact I|vm_compute; let H := fresh in intros H; discriminate H].
  - unfold common_meaning, word2vec_meaning.
    repeat match goal with |- _ /\ _ => split end; cbv [given last_value]; Flags.gs; cbn [tv_opts tv_input tv_output tv_prof tv_vec_type tv_help w2v_Dim w2v_ModelType w2v_Verbose]; reflexivity.
Qed.
