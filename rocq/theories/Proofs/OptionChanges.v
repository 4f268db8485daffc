(** * Options that do not matter: lemmas for C87 and C88 *)
From Coq Require Import Lia.
From Verif.Lib Require Import Go F64.
From Verif.Spec Require Import OptionChanges.
From Verif.Model Require Import Dictionary Encode Cooc Reader Corpus Matrix Sigmoid Word2vec Glove Lexvec LearningRate Options Train Vector Sched Run.
Local Open Scope Z_scope.

(** ** Callbacks on a state of which they only use a part *)
Section Sim.
Context {S1 S2 A : Type} (f : S1 -> S2) (fn1 : callback S1 A) (fn2 : callback S2 A).
Hypothesis H : forall s a, fn2 (f s) a = (f (fst (fn1 s a)), snd (fn1 s a)).
Lemma for_each_sim s xs : for_each fn2 (f s) xs = (f (fst (for_each fn1 s xs)), snd (for_each fn1 s xs)).
Proof.
  revert s. induction xs as [|a xs IH]; intros s; cbn; [reflexivity|]. rewrite H. destruct (fn1 s a) as [s' [u|e|]]; cbn; auto.
Qed.
End Sim.

Lemma read_word_sim {S1 S2} (f : S1 -> S2) fn1 fn2 (H : forall s a, fn2 (f s) a = (f (fst (fn1 s a)), snd (fn1 s a))) r s :
  read_word r fn2 (f s) = (f (fst (read_word r fn1 s)), snd (read_word r fn1 s)).
Proof.
  unfold read_word. destruct (scanner _) as [toks err]. rewrite (for_each_sim f fn1 fn2 H).
  destruct (for_each fn1 s toks) as [s' [u|e|]]; cbn; reflexivity.
Qed.

(** The corpus with other filters. *)
Definition refilter (a b : Z) (c : corpus) : corpus :=
  {| c_doc := c_doc c; c_dic := c_dic c; c_cooc := c_cooc c; c_len := c_len c; c_idoc := c_idoc c; c_lower := c_lower c; c_max := a; c_min := b |}.

Lemma mem_load_filters lower v lb a b c w :
  mem_load lower v lb (refilter a b c) w = (refilter a b (fst (mem_load lower v lb c w)), snd (mem_load lower v lb c w)).
Proof.
  unfold mem_load. change (c_doc (refilter a b c)) with (c_doc c).
  rewrite (read_word_sim (refilter a b) (mem_load_word lower v lb) (mem_load_word lower v lb)).
  - destruct (read_word (c_doc c) (mem_load_word lower v lb) c) as [c1 [u|e|]]; cbn -[mem_outer]; try reflexivity.
    destruct w as [w|]; [|reflexivity]. destruct (co_new (w_type w)) as [co|e|]; try reflexivity.
    destruct (mem_outer v lb (w_window w) (c_idoc c1) co); reflexivity.
  - intros s x. unfold mem_load_word, low. cbn [c_lower refilter c_dic]. destruct (dict_id _ _). reflexivity.
Qed.

Lemma fs_load_filters lower v lb a b c w :
  fs_load lower v lb (refilter a b c) w = (refilter a b (fst (fs_load lower v lb c w)), snd (fs_load lower v lb c w)).
Proof.
  unfold fs_load. change (c_doc (refilter a b c)) with (c_doc c).
  rewrite (read_word_sim (refilter a b) (fs_load_word lower v lb) (fs_load_word lower v lb)).
  - destruct (read_word (c_doc c) (fs_load_word lower v lb) c) as [c1 [u|e|]]; cbn -[mem_outer]; try reflexivity.
    destruct w as [w|]; [|reflexivity]. destruct (co_new (w_type w)) as [co|e|]; try reflexivity.
    destruct (read_word_with_forward_context _ _ _ _); reflexivity.
  - intros s x. reflexivity.
Qed.

Lemma load_corpus_filters lower im tl a b a' b' v lb w doc :
  load_corpus lower im tl a b v lb w doc = obind (load_corpus lower im tl a' b' v lb w doc) (fun c => Ret (refilter a b c)).
Proof.
  unfold load_corpus. change (corpus_new doc tl a b) with (refilter a b (corpus_new doc tl a' b')).
  destruct im; [rewrite mem_load_filters; destruct (mem_load lower v lb (corpus_new doc tl a' b') w) as [c [u|e|]]
               |rewrite fs_load_filters; destruct (fs_load lower v lb (corpus_new doc tl a' b') w) as [c [u|e|]]]; reflexivity.
Qed.

Lemma glv_setup_unused lower rand flog fpow order o maxc minc batch thr doc :
  glv_setup lower rand flog fpow order (glv_with_unused o maxc minc batch thr) doc = glv_setup lower rand flog fpow order o doc.
Proof.
  unfold glv_setup. cbn [glv_with_unused glv_DocInMemory glv_ToLower glv_MaxCount glv_MinCount glv_Verbose glv_LogBatch glv_CountType glv_Window glv_Dim glv_SolverType glv_Xmax glv_Alpha].
  rewrite (load_corpus_filters lower (glv_DocInMemory o) (glv_ToLower o) maxc minc (glv_MaxCount o) (glv_MinCount o)).
  destruct (load_corpus _ _ _ _ _ _ _ _ _) as [c|e|]; cbn [obind]; [|reflexivity..].
  cbn [refilter c_dic c_cooc]. reflexivity.
Qed.

(** ** Reports *)
Lemma report_quiet v lb : v = false \/ lb <> 0 -> report v lb = Ret tt.
Proof. unfold report. intros [->|H]; [reflexivity|]. destruct v; [|reflexivity]. apply Z.eqb_neq in H. rewrite H. reflexivity. Qed.
Lemma andb_quiet v lb : v = false \/ lb <> 0 -> v && (lb =? 0) = false.
Proof. intros [->|H]; [reflexivity|]. apply Z.eqb_neq in H. rewrite H. apply Bool.andb_false_r. Qed.

Lemma load_corpus_log lower im tl a b v lb v' lb' w doc : (v = false \/ lb <> 0) -> (v' = false \/ lb' <> 0) ->
  load_corpus lower im tl a b v lb w doc = load_corpus lower im tl a b v' lb' w doc.
Proof.
  intros H H'. pose proof (report_quiet v lb H) as R. pose proof (report_quiet v' lb' H') as R'.
  unfold load_corpus, mem_load, fs_load, mem_load_word, fs_load_word, mem_outer, mem_inner, fs_pair, add_ids.
  rewrite R, R'. reflexivity.
Qed.

Lemma make_items_log flog fpow xmax alpha v lb v' lb' em : (v = false \/ lb <> 0) -> (v' = false \/ lb' <> 0) ->
  make_items flog fpow xmax alpha v lb em = make_items flog fpow xmax alpha v' lb' em.
Proof. intros H H'. induction em as [|kv em IH]; [reflexivity|]. cbn [make_items]. rewrite (andb_quiet _ _ H), (andb_quiet _ _ H'), IH. reflexivity. Qed.

Lemma lex_items_log flog fpow d n typ s v lb v' lb' em : (v = false \/ lb <> 0) -> (v' = false \/ lb' <> 0) ->
  lex_make_items flog fpow d n typ s v lb em = lex_make_items flog fpow d n typ s v' lb' em.
Proof.
  intros H H'. unfold lex_make_items. generalize (@nil (Z * f64)) as res. induction em as [|[enc f] em IH]; intros res; [reflexivity|].
  cbn [make_items_loop]. destruct (decode_bigram enc) as [u1 u2]. destruct (calculate_relation _ _ _ _ _ _ _ _ _); cbn [obind]; [|reflexivity..].
  rewrite (andb_quiet _ _ H), (andb_quiet _ _ H'). apply IH.
Qed.

Lemma save_log {W} (wr : writer W) cut d m v lb v' lb' st : (v = false \/ lb <> 0) -> (v' = false \/ lb' <> 0) ->
  save wr cut d m v lb st = save wr cut d m v' lb' st.
Proof.
  intros H H'. unfold save. destruct (negb _); [reflexivity|].
  enough (E : forall n i buf, save_rows d m v lb n i buf = save_rows d m v' lb' n i buf) by (rewrite E; reflexivity).
  induction n as [|n IH]; intros i buf; [reflexivity|]. cbn [save_rows]. rewrite (andb_quiet _ _ H), (andb_quiet _ _ H').
  destruct (dict_word d i) as [[w b]|e|]; cbn [obind]; [|reflexivity..]. destruct (save_cells _ _ _ _ _); cbn [obind]; [apply IH|reflexivity..].
Qed.

Section Log.
Variables (v : bool) (lb : Z).
Hypothesis H' : v = false \/ lb <> 0.

Lemma w2v_setup_log lower rand o doc : (w2v_Verbose o = false \/ w2v_LogBatch o <> 0) ->
  w2v_setup lower rand (w2v_with_log o v lb) doc = w2v_setup lower rand o doc.
Proof. intros H. unfold w2v_setup. cbn -[load_corpus]. rewrite (load_corpus_log _ _ _ _ _ v lb _ _ _ _ H' H). reflexivity. Qed.
Lemma glv_setup_log lower rand flog fpow order o doc : (glv_Verbose o = false \/ glv_LogBatch o <> 0) ->
  glv_setup lower rand flog fpow order (glv_with_log o v lb) doc = glv_setup lower rand flog fpow order o doc.
Proof.
  intros H. unfold glv_setup. cbn [glv_with_log glv_DocInMemory glv_ToLower glv_MaxCount glv_MinCount glv_Verbose glv_LogBatch glv_CountType glv_Window glv_Dim glv_SolverType glv_Xmax glv_Alpha].
  rewrite (load_corpus_log _ _ _ _ _ v lb _ _ _ _ H' H). destruct (load_corpus _ _ _ _ _ _ _ _ _) as [c|e|]; cbn [obind]; [|reflexivity..].
  destruct (mat_new _ _ _ _) as [[k p]|e|]; cbn [obind]; [|reflexivity..]. match goal with |- obind ?x _ = _ => destruct x as [s|e|] end; cbn [obind]; [|reflexivity..].
  destruct (c_cooc c) as [co|]; [|reflexivity]. rewrite (make_items_log _ _ _ _ v lb _ _ _ H' H). reflexivity.
Qed.
Lemma lxv_setup_log lower rand flog fpow order o doc : (lex_Verbose o = false \/ lex_LogBatch o <> 0) -> (v || lex_Verbose o = false \/ lex_BatchSize o <> 0) ->
  lxv_setup lower rand flog fpow order (lex_with_log o v lb) doc = lxv_setup lower rand flog fpow order o doc.
Proof.
  intros H HB. assert (B1 : v = false \/ lex_BatchSize o <> 0) by (destruct HB as [HB|]; [apply Bool.orb_false_iff in HB; tauto|tauto]).
  assert (B2 : lex_Verbose o = false \/ lex_BatchSize o <> 0) by (destruct HB as [HB|]; [apply Bool.orb_false_iff in HB; tauto|tauto]).
  unfold lxv_setup. cbn [lex_with_log lex_DocInMemory lex_ToLower lex_MaxCount lex_MinCount lex_Verbose lex_LogBatch lex_BatchSize lex_Window lex_Dim lex_SubsampleThreshold lex_RelationType lex_Smooth].
  rewrite (load_corpus_log _ _ _ _ _ v (lex_BatchSize o) _ _ _ _ B1 B2). destruct (load_corpus _ _ _ _ _ _ _ _ _) as [c|e|]; cbn [obind]; [|reflexivity..].
  destruct (mat_new _ _ _ _) as [[k p]|e|]; cbn [obind]; [|reflexivity..]. destruct (Subsample.subsample_new _ _) as [s|e|]; cbn [obind]; [|reflexivity..].
  destruct (c_cooc c) as [co|]; [|reflexivity]. rewrite (lex_items_log _ _ _ _ _ _ v lb _ _ _ H' H). reflexivity.
Qed.

Lemma w2v_effects_log sig rand o w : (w2v_Verbose o = false \/ w2v_LogBatch o <> 0) ->
  w2v_effects sig rand (w2v_with_log o v lb) w = w2v_effects sig rand o w.
Proof.
  intros H. unfold w2v_effects, w2v_tick, lr_tick. cbn [w2v_lr_opts lo_verbose lo_logbatch w2v_with_log w2v_Verbose w2v_LogBatch].
  rewrite (andb_quiet _ _ H), (andb_quiet _ _ H'). reflexivity.
Qed.
Lemma glv_effects_log o V : (glv_Verbose o = false \/ glv_LogBatch o <> 0) ->
  glv_effects (glv_with_log o v lb) V = glv_effects o V.
Proof.
  intros H. unfold glv_effects. cbn [glv_with_log glv_Verbose glv_LogBatch].
  rewrite (andb_quiet _ _ H), (andb_quiet _ _ H'). reflexivity.
Qed.
Lemma lxv_effects_log rand o l : (lex_Verbose o = false \/ lex_LogBatch o <> 0) ->
  lxv_effects rand (lex_with_log o v lb) l = lxv_effects rand o l.
Proof.
  intros H. unfold lxv_effects, lxv_tick, lr_tick. cbn [lxv_lr_opts lo_verbose lo_logbatch lex_with_log lex_Verbose lex_LogBatch].
  rewrite (andb_quiet _ _ H), (andb_quiet _ _ H'). reflexivity.
Qed.
End Log.
