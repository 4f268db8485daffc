(** * C91: whole commands

    [train_for] is NewForOptions, Train and Save of a model; [o] the operating system, [dir] filepath.Dir. *)
From Coq Require Import Lia Sorting.Permutation.
From Verif.Lib Require Import Go F64.
From Verif.Spec Require Import CommandLine CommandMeaning Cmd Words Tokens Lines Saved Decimal Readable Runs.
From Verif.Model Require Import Options Reader Dictionary Corpus Word2vec Glove Lexvec Train Run Embedding ParseFloat Vector Search Cmd Flags Main.
From Verif.Proofs Require ParseFloat Flags.
From Verif.Properties Require P20_Search P22_Cmd P23_Runs P24_EndToEnd P28_CommandLine.
Local Open Scope Z_scope.

(** C91. A training command whose arguments are refused, or that is asked for help, touches nothing. *)
Theorem C91_refused : forall T train_for dir pb o (vars : outcome (train_vars T * list gostring)) fs,
  (forall s words, vars = Ret (s, words) -> tv_help s = true) ->
  fst (train_main train_for dir pb o vars fs) = fs.
Proof.
  intros T train_for dir pb o vars fs H. unfold train_main. destruct vars as [[s words]|m|]; [|reflexivity|reflexivity].
  rewrite (H s words eq_refl). reflexivity.
Qed.
Print Assumptions C91_refused.

Lemma same_given {A} (parse : gostring -> option A) st st' n d x : (forall k, last_value k st = last_value k st') -> given parse st n d x -> given parse st' n d x.
Proof. intros H. unfold given. rewrite (H (bs n)). auto. Qed.
Local Ltac same_tac HL := intros H; repeat match goal with H : _ /\ _ |- _ => destruct H end; repeat match goal with |- _ /\ _ => split end; eapply same_given; eauto.

(** C91. Only the last value of each option matters: not the order of the options, not the way they are
    written, not earlier values, not the other words. *)
Theorem C91_same_word2vec : forall pint pfloat numcpu args args' st st' words words' train_for dir pb o fs,
  command_line word2vec_options args st words -> command_line word2vec_options args' st' words' ->
  (forall n v, In (n, v) st \/ In (n, v) st' -> accepts word2vec_options pint pfloat parse_bool n v) ->
  (forall n, last_value n st = last_value n st') ->
  train_main train_for dir pb o (w2v_cmd_vars pint pfloat numcpu args) fs = train_main train_for dir pb o (w2v_cmd_vars pint pfloat numcpu args') fs.
Proof.
  intros pint pfloat numcpu args args' st st' words words' train_for dir pb o fs HC HC' HA HL.
  destruct (P28_CommandLine.C89_word2vec_runs pint pfloat numcpu _ _ _ HC (fun n v HI => HA n v (or_introl HI))) as (s & E & HM1 & HM2).
  rewrite E. rewrite (proj2 (P28_CommandLine.C89_word2vec pint pfloat numcpu args' s words')); [reflexivity|].
  exists st'. split; [exact HC'|]. split; [intros n v HI; apply HA; right; exact HI|]. split.
  - revert HM1. unfold common_meaning. same_tac HL.
  - revert HM2. unfold word2vec_meaning. same_tac HL.
Qed.
Print Assumptions C91_same_word2vec.

Theorem C91_same_glove : forall pint pfloat numcpu args args' st st' words words' train_for dir pb o fs,
  command_line glove_options args st words -> command_line glove_options args' st' words' ->
  (forall n v, In (n, v) st \/ In (n, v) st' -> accepts glove_options pint pfloat parse_bool n v) ->
  (forall n, last_value n st = last_value n st') ->
  train_main train_for dir pb o (glv_cmd_vars pint pfloat numcpu args) fs = train_main train_for dir pb o (glv_cmd_vars pint pfloat numcpu args') fs.
Proof.
  intros pint pfloat numcpu args args' st st' words words' train_for dir pb o fs HC HC' HA HL.
  destruct (P28_CommandLine.C89_glove_runs pint pfloat numcpu _ _ _ HC (fun n v HI => HA n v (or_introl HI))) as (s & E & HM1 & HM2).
  rewrite E. rewrite (proj2 (P28_CommandLine.C89_glove pint pfloat numcpu args' s words')); [reflexivity|].
  exists st'. split; [exact HC'|]. split; [intros n v HI; apply HA; right; exact HI|]. split.
  - revert HM1. unfold common_meaning. same_tac HL.
  - revert HM2. unfold glove_meaning. same_tac HL.
Qed.
Print Assumptions C91_same_glove.

Theorem C91_same_lexvec : forall pint pfloat numcpu args args' st st' words words' train_for dir pb o fs,
  command_line lexvec_options args st words -> command_line lexvec_options args' st' words' ->
  (forall n v, In (n, v) st \/ In (n, v) st' -> accepts lexvec_options pint pfloat parse_bool n v) ->
  (forall n, last_value n st = last_value n st') ->
  train_main train_for dir pb o (lex_cmd_vars pint pfloat numcpu args) fs = train_main train_for dir pb o (lex_cmd_vars pint pfloat numcpu args') fs.
Proof.
  intros pint pfloat numcpu args args' st st' words words' train_for dir pb o fs HC HC' HA HL.
  destruct (P28_CommandLine.C89_lexvec_runs pint pfloat numcpu _ _ _ HC (fun n v HI => HA n v (or_introl HI))) as (s & E & HM1 & HM2).
  rewrite E. rewrite (proj2 (P28_CommandLine.C89_lexvec pint pfloat numcpu args' s words')); [reflexivity|].
  exists st'. split; [exact HC'|]. split; [intros n v HI; apply HA; right; exact HI|]. split.
  - revert HM1. unfold common_meaning. same_tac HL.
  - revert HM2. unfold lexvec_meaning. same_tac HL.
Qed.
Print Assumptions C91_same_lexvec.


Theorem C91_same_query : forall pint pf o fs args args' st st' words,
  command_line query_options args st words -> command_line query_options args' st' words ->
  (forall n v, In (n, v) st \/ In (n, v) st' -> accepts query_options pint (fun _ => None) parse_bool n v) ->
  (forall n, last_value n st = last_value n st') ->
  query_main pf o (query_cmd_vars pint args) fs = query_main pf o (query_cmd_vars pint args') fs.
Proof.
  intros pint pf o fs args args' st st' words HC HC' HA HL.
  destruct (P28_CommandLine.C89_query_runs pint (fun _ => None) _ _ _ HC (fun n v HI => HA n v (or_introl HI))) as (s & E & HM).
  rewrite E. rewrite (proj2 (P28_CommandLine.C89_query pint (fun _ => None) args' s words)); [reflexivity|].
  exists st'. split; [exact HC'|]. split; [intros n v HI; apply HA; right; exact HI|].
  revert HM. unfold query_meaning. same_tac HL.
Qed.
Print Assumptions C91_same_query.

Lemma main_success T train_for dir pb o (s : train_vars T) words fs fs' :
  sane o -> train_main train_for dir pb o (Ret (s, words)) fs = (fs', Ret tt) -> tv_help s = false -> tv_prof s = false ->
  exists n written, fs (tv_input s) = Some n /\
    train_for (tv_opts s) (tv_vec_type s) {| rd_data := match n with File c => c | Dir => [] end; rd_pos := 0; rd_err := match n with File _ => false | Dir => true end |}
      = Ret (written, Ret tt) /\ fs' (tv_output s) = Some (File written).
Proof.
  intros So. cbn [train_main]. intros E Hh Hp. rewrite Hh, Hp in E. destruct (P22_Cmd.C66_success _ _ _ _ _ _ _ _ So E) as (_ & n & w & H). eauto.
Qed.

Lemma main_query pint pf o fs args s w file embs : query_cmd_vars pint args = Ret (s, [w]) -> qv_help s = false -> os_open o fs (qv_input s) = true ->
  fs (qv_input s) = Some (File file) -> load pf (file_of file) = Ret embs -> searcher_new embs = Ret embs ->
  (exists rows, search_internal embs w (qv_rank s) = Ret rows) ->
  exists rows, query_main pf o (query_cmd_vars pint args) fs = Ret (Some rows) /\ search_internal embs w (qv_rank s) = Ret rows.
Proof.
  intros E Hh Ho Hf El En (rows & Er). exists rows. split; [|exact Er]. rewrite E. cbn [query_main obind]. rewrite Hh. unfold query, file_exists. rewrite Hf. cbn [negb].
  unfold open. rewrite Hf, Ho. cbn [obind]. unfold file_of in El. rewrite El. cbn [obind]. rewrite En. cbn [obind]. rewrite Er. reflexivity.
Qed.

(** A training command, then a query for a word of its text. *)
Definition answers (pint : gostring -> option Z) (pf : gostring -> option f64) (o : opsys) (fs' : fsys) (output : gostring) (words : list gostring) : Prop :=
  exists file, fs' output = Some (File file) /\
    forall ls, lines file ls -> Forall (fun l => Z.of_nat (length l) <= 65535) ls -> os_open o fs' output = true ->
    forall args s w, query_cmd_vars pint args = Ret (s, [w]) -> qv_help s = false -> qv_input s = output -> 1 <= qv_rank s -> In w words ->
    exists rows, query_main pf o (query_cmd_vars pint args) fs' = Ret (Some rows).

Lemma queryable_answers pint pf o fs' output words cut d vectors verbose lb typ file : P24_EndToEnd.queryable pf cut words d vectors verbose lb ->
  model_save good_writer cut d vectors verbose lb typ [] = (file, Ret tt) -> fs' output = Some (File file) -> answers pint pf o fs' output words.
Proof.
  intros HQ Es Ef. exists file. split; [exact Ef|]. intros ls HL HS Ho args s w E Hh Hi Hr Hw. destruct (HQ typ) as (file' & Es' & H). rewrite Es in Es'. injection Es' as <-.
  destruct (H ls HL HS) as (embs & El & _ & En & Hf). destruct (Hf w (qv_rank s) Hw Hr) as (rows & Er).
  destruct (main_query pint pf o fs' args s w file embs E Hh) as (rows' & Em & _); try assumption; try (rewrite Hi; assumption); eauto.
Qed.

(** C91. If the training command with these arguments succeeds, then wego query for any word of the
    training text (after lower-casing, if it was asked for), with the output as the input and a positive rank, prints rows. [train_for] stands for any schedule:
    what it returns is the result of some run of Train, saved. *)
Theorem C91_lexvec_query : forall pint pfloat pf numcpu args s words o dir pb fs fs' cut lower rand flog fpow order next lr train_for c all,
  reads_decimals pf -> (forall t, concat (cut t) = t) -> P24_EndToEnd.keeps_words lower (lex_ToLower (tv_opts s)) -> (forall m, Permutation (order m) m) -> sane o ->
  lex_cmd_vars pint pfloat numcpu args = Ret (s, words) -> tv_help s = false -> tv_prof s = false ->
  fs (tv_input s) = Some (File c) -> lxv_usable lower (tv_opts s) (file_of c) all -> 1 <= lex_Dim (tv_opts s) ->
  (forall file, train_for (tv_opts s) (tv_vec_type s) (file_of c) = Ret (file, Ret tt) -> exists l, lxv_trained lower rand flog fpow order next lr (tv_opts s) (file_of c) l /\
     model_save good_writer cut (c_dic (lx_corpus l)) (lxv_word_vector (tv_opts s) l) (lex_Verbose (tv_opts s)) (lex_LogBatch (tv_opts s)) (tv_vec_type s) [] = (file, Ret tt)) ->
  train_main train_for dir pb o (lex_cmd_vars pint pfloat numcpu args) fs = (fs', Ret tt) ->
  answers pint pf o fs' (tv_output s) (used_words lower (lex_ToLower (tv_opts s)) all).
Proof.
  intros pint pfloat pf numcpu args s words o dir pb fs fs' cut lower rand flog fpow order next lr train_for c all HF Hc HK HP So E Hh Hp Hi HU Hd HT Hm.
  rewrite E in Hm. destruct (main_success _ _ _ _ _ _ _ _ _ So Hm Hh Hp) as (n & file & Hn & Et & Hfile). rewrite Hi in Hn. injection Hn as <-.
  destruct (HT _ Et) as (l & HL & Es).
  eapply queryable_answers; [|exact Es|exact Hfile]. eapply P24_EndToEnd.C68_lexvec; eassumption.
Qed.
Print Assumptions C91_lexvec_query.

Theorem C91_glove_query : forall pint pfloat pf numcpu args s words o dir pb fs fs' cut lower rand flog fpow order train_for c all,
  reads_decimals pf -> (forall t, concat (cut t) = t) -> P24_EndToEnd.keeps_words lower (glv_ToLower (tv_opts s)) -> (forall m, Permutation (order m) m) -> sane o ->
  glv_cmd_vars pint pfloat numcpu args = Ret (s, words) -> tv_help s = false -> tv_prof s = false ->
  fs (tv_input s) = Some (File c) -> glv_usable lower (tv_opts s) (file_of c) all -> 1 <= glv_Dim (tv_opts s) ->
  (forall file, train_for (tv_opts s) (tv_vec_type s) (file_of c) = Ret (file, Ret tt) -> exists g, glv_trained lower rand flog fpow order (tv_opts s) (file_of c) g /\
     model_save good_writer cut (gl_dic g) (glv_word_vector (tv_opts s) g) (glv_Verbose (tv_opts s)) (glv_LogBatch (tv_opts s)) (tv_vec_type s) [] = (file, Ret tt)) ->
  train_main train_for dir pb o (glv_cmd_vars pint pfloat numcpu args) fs = (fs', Ret tt) ->
  answers pint pf o fs' (tv_output s) (used_words lower (glv_ToLower (tv_opts s)) all).
Proof.
  intros pint pfloat pf numcpu args s words o dir pb fs fs' cut lower rand flog fpow order train_for c all HF Hc HK HP So E Hh Hp Hi HU Hd HT Hm.
  rewrite E in Hm. destruct (main_success _ _ _ _ _ _ _ _ _ So Hm Hh Hp) as (n & file & Hn & Et & Hfile). rewrite Hi in Hn. injection Hn as <-.
  destruct (HT _ Et) as (g & HL & Es).
  eapply queryable_answers; [|exact Es|exact Hfile]. eapply P24_EndToEnd.C68_glove; eassumption.
Qed.
Print Assumptions C91_glove_query.

Theorem C91_word2vec_query : forall pint pfloat pf numcpu args s words o dir pb fs fs' cut exp lower rand next lr train_for c all,
  reads_decimals pf -> (forall t, concat (cut t) = t) -> P24_EndToEnd.keeps_words lower (w2v_ToLower (tv_opts s)) -> sane o ->
  w2v_cmd_vars pint pfloat numcpu args = Ret (s, words) -> tv_help s = false -> tv_prof s = false ->
  fs (tv_input s) = Some (File c) -> w2v_usable lower (tv_opts s) (file_of c) all -> 1 <= w2v_Dim (tv_opts s) ->
  (forall file, train_for (tv_opts s) (tv_vec_type s) (file_of c) = Ret (file, Ret tt) -> exists w, w2v_trained exp lower rand next lr (tv_opts s) (file_of c) w /\
     model_save good_writer cut (c_dic (wv_corpus w)) (w2v_word_vector (tv_opts s) w) (w2v_Verbose (tv_opts s)) (w2v_LogBatch (tv_opts s)) (tv_vec_type s) [] = (file, Ret tt)) ->
  train_main train_for dir pb o (w2v_cmd_vars pint pfloat numcpu args) fs = (fs', Ret tt) ->
  answers pint pf o fs' (tv_output s) (used_words lower (w2v_ToLower (tv_opts s)) all).
Proof.
  intros pint pfloat pf numcpu args s words o dir pb fs fs' cut exp lower rand next lr train_for c all HF Hc HK So E Hh Hp Hi HU Hd HT Hm.
  rewrite E in Hm. destruct (main_success _ _ _ _ _ _ _ _ _ So Hm Hh Hp) as (n & file & Hn & Et & Hfile). rewrite Hi in Hn. injection Hn as <-.
  destruct (HT _ Et) as (w & HL & Es).
  eapply queryable_answers; [|exact Es|exact Hfile]. eapply P24_EndToEnd.C68_word2vec; eassumption.
Qed.
Print Assumptions C91_word2vec_query.


(** wego lexvec --min-count=0 --goroutines=2 -d2 *)
Definition two_numbers (v : gostring) : option Z := if gseqb v (bs "0") then Some 0 else if gseqb v (bs "2") then Some 2 else None.
Lemma case_vars : lex_cmd_vars two_numbers (fun _ => None) 8 [bs "--min-count=0"; bs "--goroutines=2"; bs "-d2"] =
  Ret (TrainVars (bs "example/input.txt") (bs "example/word_vectors.txt") false "single"%string
    (LexOpts 10000 2 false 2 (f_dec 25 3) 15 100000 (-1) 0 (fmul (f_dec 25 3) (f_dec 1 4)) 5 "ppmi"%string (f_dec 75 2) (f_dec 1 3) false 100000 false 5) false, []).
Proof.
  apply P28_CommandLine.C89_lexvec. exists [(bs "min-count", bs "0"); (bs "goroutines", bs "2"); (bs "dim", bs "2")]. split; [|split].
    - apply (cl_equal lexvec_options (Opt "min-count" None Int)); [repeat (first [left; reflexivity|right])|].
      apply (cl_equal lexvec_options (Opt "goroutines" None Int)); [repeat (first [left; reflexivity|right])|].
      apply (cl_letters lexvec_options (bs "d2") [] [(bs "dim", bs "2")] [] [] []); [discriminate|intros t E; discriminate E| |constructor].
      apply (l_attached lexvec_options (Opt "dim" (Some x64) Int) x64 (bs "2"));
        [repeat (first [left; reflexivity|right])|reflexivity|discriminate|discriminate|intros (b & t & E); discriminate E|intros (t & E); discriminate E].
    - intros n v [E|[E|[E|[]]]]; injection E as <- <-; (eapply Flags.accepts_find; [vm_compute; reflexivity|]);
        cbn [o_kind]; first [exact I|vm_compute; let H := fresh in intros H; discriminate H].
    - unfold common_meaning, lexvec_meaning.
      repeat match goal with |- _ /\ _ => split end; cbv [given last_value]; Flags.gs; cbn [tv_opts tv_input tv_output tv_prof tv_vec_type tv_help lex_Dim lex_MinCount lex_Goroutines]; reflexivity.
Qed.

(** wego lexvec --min-count=0 --goroutines=2 -d2 on the text a b a, then wego query a. *)
Example C91_case :
  let id := fun w : gostring => w in
  let pint := two_numbers in
  let o := lex_new 2 [L_Dim 2; L_MinCount 0] in
  let s := TrainVars (bs "example/input.txt") (bs "example/word_vectors.txt") false "single"%string o false in
  let vars := lex_cmd_vars pint (fun _ => None) 8 [bs "--min-count=0"; bs "--goroutines=2"; bs "-d2"] in
  let fs : fsys := fun p => if gseqb p (bs "example/input.txt") then Some (File (bs "a b a")) else None in
  vars = Ret (s, []) /\ lxv_usable id o (file_of (bs "a b a")) P23_Runs.aba_words /\
  exists train_for fs', (exists l file, (forall opts typ r, train_for opts typ r = Ret (file, Ret tt)) /\
      lxv_trained id (fun _ => fzero) (fun x => x) (fun x _ => x) (fun m => m) 1 (lex_Initlr o) o (file_of (bs "a b a")) l /\
      model_save good_writer (fun t => [t]) (c_dic (lx_corpus l)) (lxv_word_vector o l) (lex_Verbose o) (lex_LogBatch o) "single" [] = (file, Ret tt)) /\
    train_main train_for (fun _ => bs "example") [] permissive vars fs = (fs', Ret tt) /\
    query_cmd_vars pint [bs "a"] = Ret (QueryVars (bs "example/word_vectors.txt") 10 false, [bs "a"]).
Proof.
  intros id pint o s vars fs.
  destruct P24_EndToEnd.C68_case as (HF & HK & HU & l & HL). fold id in HK, HU, HL. fold o in HK, HU, HL.
  assert (Ev : vars = Ret (s, [])) by exact case_vars.
  split; [exact Ev|]. split; [exact HU|].
  destruct (P24_EndToEnd.C68_lexvec parse_float (fun t => [t]) id _ _ _ _ _ _ o _ _ l HF (fun t => app_nil_r t) HK (fun m => Permutation_refl m) HU ltac:(vm_compute; discriminate) HL "single"%string) as (file & Es & _).
  exists (fun _ _ _ => Ret (file, Ret tt)). rewrite Ev. eexists. split; [|split].
  - exists l, file. split; [reflexivity|]. split; [exact HL|exact Es].
  - reflexivity.
  - apply (P28_CommandLine.C89_query pint (fun _ => None)). exists []. split; [apply cl_word; [right; intros t E; discriminate E|constructor]|]. split; [intros n v []|]. repeat split.
Qed.
