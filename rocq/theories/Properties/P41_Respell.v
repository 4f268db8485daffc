(** * C104, C105: what of a text training depends on

    [respells lower to_lower f all] (Spec/Rename.v): [f] gives the words of the text [all] new spellings,
    different ones to different words. [respelled f doc' ..] is the corpus with the same ids, frequencies,
    co-occurrences and lengths, with the words replaced and [doc'] as its text. [w2v_trained .. o doc w]
    (Model/Run.v): some schedule of Train on [doc] returns nil and leaves the model [w]. *)
From Coq Require Import Lia.
From Verif.Lib Require Import Go F64.
From Verif.Spec Require Import Words Tokens Saved Readable Runs Rename.
From Verif.Model Require Import Dictionary Reader Cooc Corpus Matrix Word2vec Glove Lexvec Options Train Sched Sigmoid Run FmtFloat Vector.
From Verif.Proofs Require Rename Reader.
From Verif.Proofs Require Import RunSetup.
Local Open Scope Z_scope.

Lemma used_respelled lower b f all : respells lower b f all -> used_words lower b (map f all) = map f (used_words lower b all).
Proof.
  intros [_ _ H]. unfold used_words. destruct b; [|reflexivity]. rewrite !map_map. apply map_ext_in. intros w Hw. apply H; auto.
Qed.
Lemma used_inj lower b f all : respells lower b f all -> forall v w, In v (used_words lower b all) -> In w (used_words lower b all) -> f v = f w -> v = w.
Proof. intros [_ H _] v w Hv Hw. apply H; right; apply in_or_app; auto. Qed.

(** C104. Trained on a respelled text, word2vec can reach exactly the models it can reach on the
    original, with the words respelled: same parameters, tables and tree, for every schedule. *)
Theorem C104_word2vec : forall exp lower f rand next lr o doc doc' all,
  respells lower (w2v_ToLower o) f all ->
  readable (w2v_Verbose o) (w2v_LogBatch o) doc all -> readable (w2v_Verbose o) (w2v_LogBatch o) doc' (map f all) ->
  forall w', w2v_trained exp lower rand next lr o doc' w' <->
    exists w, w2v_trained exp lower rand next lr o doc w /\
      w' = W2v (respelled f doc' (w2v_ToLower o) (wv_corpus w)) (wv_param w) (wv_samples w) (wv_mod w) (wv_opt w).
Proof.
  intros exp lower f rand next lr o doc doc' all HS HR HR' w'.
  pose proof (Rename.w2v_rn exp lower f rand o (w2v_ToLower o) (w2v_ToLower o) doc doc' all (map f all) HR HR' (used_respelled _ _ _ _ HS) (used_inj _ _ _ _ HS) next lr w') as H.
  rewrite Rename.w2v_lc_same in H. exact H.
Qed.
Print Assumptions C104_word2vec.

Theorem C104_glove : forall lower f rand flog fpow order o doc doc' all,
  respells lower (glv_ToLower o) f all ->
  readable (glv_Verbose o) (glv_LogBatch o) doc all -> readable (glv_Verbose o) (glv_LogBatch o) doc' (map f all) ->
  forall g', glv_trained lower rand flog fpow order o doc' g' <->
    exists g, glv_trained lower rand flog fpow order o doc g /\
      g' = Glv (respelled_dict f (gl_dic g)) (gl_param g) (gl_solver g) (gl_items g).
Proof.
  intros lower f rand flog fpow order o doc doc' all HS HR HR' g'.
  pose proof (Rename.glv_rn lower f rand flog fpow order o (glv_ToLower o) (glv_ToLower o) doc doc' all (map f all) HR HR' (used_respelled _ _ _ _ HS) (used_inj _ _ _ _ HS)
    (or_intror (or_intror (conj eq_refl (conj (rs_empty _ _ _ _ HS) (rs_different _ _ _ _ HS))))) g') as H.
  rewrite Rename.glv_lc_same in H. exact H.
Qed.
Print Assumptions C104_glove.

Theorem C104_lexvec : forall lower f rand flog fpow order next lr o doc doc' all,
  respells lower (lex_ToLower o) f all ->
  readable (lex_Verbose o) (lex_BatchSize o) doc all -> readable (lex_Verbose o) (lex_BatchSize o) doc' (map f all) ->
  forall l', lxv_trained lower rand flog fpow order next lr o doc' l' <->
    exists l, lxv_trained lower rand flog fpow order next lr o doc l /\
      l' = Lxv (respelled f doc' (lex_ToLower o) (lx_corpus l)) (lx_param l) (lx_samples l) (lx_items l).
Proof.
  intros lower f rand flog fpow order next lr o doc doc' all HS HR HR' l'.
  pose proof (Rename.lxv_rn lower f rand flog fpow order o (lex_ToLower o) (lex_ToLower o) doc doc' all (map f all) HR HR' (used_respelled _ _ _ _ HS) (used_inj _ _ _ _ HS)
    (or_intror (or_intror (conj eq_refl (conj (rs_empty _ _ _ _ HS) (rs_different _ _ _ _ HS))))) next lr l') as H.
  rewrite Rename.lex_lc_same in H. exact H.
Qed.
Print Assumptions C104_lexvec.

(** C104. The saved files are the same lines with the words respelled (or saving fails alike). *)
Theorem C104_word2vec_saved : forall exp lower f rand next lr o doc doc' all cut typ w,
  readable (w2v_Verbose o) (w2v_LogBatch o) doc all -> (forall t, concat (cut t) = t) ->
  w2v_trained exp lower rand next lr o doc w ->
  let w' := W2v (respelled f doc' (w2v_ToLower o) (wv_corpus w)) (wv_param w) (wv_samples w) (wv_mod w) (wv_opt w) in
  same_file f (distinct (used_words lower (w2v_ToLower o) all))
    (model_save good_writer cut (c_dic (wv_corpus w)) (w2v_word_vector o w) (w2v_Verbose o) (w2v_LogBatch o) typ [])
    (model_save good_writer cut (c_dic (wv_corpus w')) (w2v_word_vector o w') (w2v_Verbose o) (w2v_LogBatch o) typ []).
Proof.
  intros exp lower f rand next lr o doc doc' all cut typ w HR Hc (w0 & x & v & HS & _ & _ & ->) w'. unfold w'. clear w'. cbn [wv_corpus].
  apply w2v_setup_corpus in HS. pose proof (Rename.loaded_c lower _ doc all _ _ HR _ _ _ _ _ HS) as (Hd & _).
  unfold model_save. change (w2v_word_vector o (W2v (respelled f doc' (w2v_ToLower o) (wv_corpus w0)) ?a ?b ?c ?d) typ) with (w2v_word_vector o (W2v (wv_corpus w0) a b c d) typ).
  destruct (w2v_word_vector _ _ typ) as [m|e|]; [|split; [reflexivity|split; reflexivity]|split; [reflexivity|split; reflexivity]].
  cbn [c_dic respelled]. rewrite Hd. apply Rename.save_rn. exact Hc.
Qed.
Print Assumptions C104_word2vec_saved.

Theorem C104_lexvec_saved : forall lower f rand flog fpow order next lr o doc doc' all cut typ l,
  readable (lex_Verbose o) (lex_BatchSize o) doc all -> (forall t, concat (cut t) = t) ->
  lxv_trained lower rand flog fpow order next lr o doc l ->
  let l' := Lxv (respelled f doc' (lex_ToLower o) (lx_corpus l)) (lx_param l) (lx_samples l) (lx_items l) in
  same_file f (distinct (used_words lower (lex_ToLower o) all))
    (model_save good_writer cut (c_dic (lx_corpus l)) (lxv_word_vector o l) (lex_Verbose o) (lex_LogBatch o) typ [])
    (model_save good_writer cut (c_dic (lx_corpus l')) (lxv_word_vector o l') (lex_Verbose o) (lex_LogBatch o) typ []).
Proof.
  intros lower f rand flog fpow order next lr o doc doc' all cut typ l HR Hc (l0 & x & v & HS & _ & _ & ->) l'. unfold l'. clear l'. cbn [lx_corpus].
  apply lxv_setup_corpus in HS. pose proof (Rename.loaded_c lower _ doc all _ _ HR _ _ _ _ _ HS) as (Hd & _).
  unfold model_save. change (lxv_word_vector o (Lxv (respelled f doc' (lex_ToLower o) (lx_corpus l0)) ?a ?b ?c) typ) with (lxv_word_vector o (Lxv (lx_corpus l0) a b c) typ).
  destruct (lxv_word_vector _ _ typ) as [m|e|]; [|split; [reflexivity|split; reflexivity]|split; [reflexivity|split; reflexivity]].
  cbn [c_dic respelled]. rewrite Hd. apply Rename.save_rn. exact Hc.
Qed.
Print Assumptions C104_lexvec_saved.

Theorem C104_glove_saved : forall lower f rand flog fpow order o doc all cut typ g,
  readable (glv_Verbose o) (glv_LogBatch o) doc all -> (forall t, concat (cut t) = t) ->
  glv_trained lower rand flog fpow order o doc g ->
  let g' := Glv (respelled_dict f (gl_dic g)) (gl_param g) (gl_solver g) (gl_items g) in
  same_file f (distinct (used_words lower (glv_ToLower o) all))
    (model_save good_writer cut (gl_dic g) (glv_word_vector o g) (glv_Verbose o) (glv_LogBatch o) typ [])
    (model_save good_writer cut (gl_dic g') (glv_word_vector o g') (glv_Verbose o) (glv_LogBatch o) typ []).
Proof.
  intros lower f rand flog fpow order o doc all cut typ g HR Hc (g0 & x & m & sol & HS & _ & _ & ->) g'. unfold g'. clear g'. cbn [gl_dic gl_param gl_solver gl_items].
  assert (Hd : gl_dic g0 = dict_add dict_new (used_words lower (glv_ToLower o) all)).
  { unfold glv_setup in HS. destruct (load_corpus _ _ _ _ _ _ _ _ _) as [c| |] eqn:EL; cbn [obind] in HS; try discriminate HS. cbv zeta in HS.
    destruct (mat_new _ _ _ _) as [[k p]| |]; cbn [obind] in HS; try discriminate HS.
    match type of HS with obind ?a _ = _ => destruct a as [s| |]; cbn [obind] in HS; try discriminate HS end.
    destruct (c_cooc c); [|discriminate HS]. destruct (make_items _ _ _ _ _ _ _) as [it| |]; cbn [obind] in HS; try discriminate HS.
    assert (g0 = Glv (c_dic c) p s it) by congruence. subst g0. cbn [gl_dic].
    exact (proj1 (Rename.loaded_c lower _ doc all _ _ HR _ _ _ _ _ EL)). }
  unfold model_save. change (glv_word_vector o (Glv (respelled_dict f (gl_dic g0)) ?a ?b ?c) typ) with (glv_word_vector o (Glv (gl_dic g0) a b c) typ).
  destruct (glv_word_vector _ _ typ) as [mm|e|]; [|split; [reflexivity|split; reflexivity]|split; [reflexivity|split; reflexivity]].
  rewrite Hd. apply Rename.save_rn. exact Hc.
Qed.
Print Assumptions C104_glove_saved.

(** C104. Train fails on the respelled text exactly as on the original: the same error before the workers
    start, or a panic; and the workers get the same document and can reach the same states, panics included. *)
Theorem C104_word2vec_failures : forall exp lower f rand o doc doc' all,
  respells lower (w2v_ToLower o) f all ->
  readable (w2v_Verbose o) (w2v_LogBatch o) doc all -> readable (w2v_Verbose o) (w2v_LogBatch o) doc' (map f all) ->
  (forall e, w2v_setup lower rand o doc' = Err e <-> w2v_setup lower rand o doc = Err e) /\
  (w2v_setup lower rand o doc' = Panic <-> w2v_setup lower rand o doc = Panic) /\
  forall w0 w0', w2v_setup lower rand o doc = Ret w0 -> w2v_setup lower rand o doc' = Ret w0' ->
    w2v_source lower o w0' = w2v_source lower o w0 /\
    forall x next lr l v r, let iter := Z.to_nat (w2v_Iter o) in
      (reaches (w2v_cfg o) (w2v_effects (sigmoid (sig_table exp)) rand o w0') iter (fun _ => x) (w2v_start next lr w0') l v <->
       reaches (w2v_cfg o) (w2v_effects (sigmoid (sig_table exp)) rand o w0) iter (fun _ => x) (w2v_start next lr w0) l v) /\
      (vrun_step (w2v_cfg o) (w2v_effects (sigmoid (sig_table exp)) rand o w0') iter (fun _ => x) l v r <->
       vrun_step (w2v_cfg o) (w2v_effects (sigmoid (sig_table exp)) rand o w0) iter (fun _ => x) l v r).
Proof.
  intros exp lower f rand o doc doc' all HS HR HR'.
  pose proof (Rename.w2v_setup_rn lower f rand o (w2v_ToLower o) (w2v_ToLower o) doc doc' all (map f all) HR HR' (used_respelled _ _ _ _ HS) (used_inj _ _ _ _ HS)) as E.
  rewrite Rename.w2v_lc_same in E. rewrite E. destruct (w2v_setup lower rand o doc) as [w0|e|] eqn:ES; cbn [obind].
  - split; [split; discriminate|]. split; [split; discriminate|]. intros w1 w1' E1 E2. assert (w1 = w0) by congruence. subst w1.
    assert (w1' = Rename.respelled_w2v f doc' (w2v_ToLower o) w0) by congruence. subst w1'. clear E1 E2. split.
    + apply w2v_setup_corpus in ES. unfold w2v_source. cbn [Rename.respelled_w2v wv_corpus].
      exact (Rename.source_rn lower f _ _ doc doc' all (map f all) _ _ HR HR' (used_respelled _ _ _ _ HS) (used_inj _ _ _ _ HS) _ _ _ _ _ _ _ ES).
    + intros x next lr l v r. split; reflexivity.
  - split; [intros e'; split; congruence|]. split; [split; discriminate|]. discriminate.
  - split; [split; discriminate|]. split; [split; reflexivity|]. discriminate.
Qed.
Print Assumptions C104_word2vec_failures.

(** C104. In particular only the sequence of words matters, not the white space between them: on two texts
    with the same words the models are the same (but for the text itself). *)
Theorem C104_layout : forall exp lower rand flog fpow order next lr doc doc' all,
  (forall o, readable (w2v_Verbose o) (w2v_LogBatch o) doc all -> readable (w2v_Verbose o) (w2v_LogBatch o) doc' all ->
    forall p s m op, (exists c, w2v_trained exp lower rand next lr o doc (W2v c p s m op)) <-> (exists c', w2v_trained exp lower rand next lr o doc' (W2v c' p s m op))) /\
  (forall o, readable (glv_Verbose o) (glv_LogBatch o) doc all -> readable (glv_Verbose o) (glv_LogBatch o) doc' all ->
    forall g, glv_trained lower rand flog fpow order o doc g <-> glv_trained lower rand flog fpow order o doc' g) /\
  (forall o, readable (lex_Verbose o) (lex_BatchSize o) doc all -> readable (lex_Verbose o) (lex_BatchSize o) doc' all ->
    forall p s it, (exists c, lxv_trained lower rand flog fpow order next lr o doc (Lxv c p s it)) <-> (exists c', lxv_trained lower rand flog fpow order next lr o doc' (Lxv c' p s it))).
Proof.
  intros exp lower rand flog fpow order next lr doc doc' all.
  assert (RS : forall b, respells lower b (fun w => w) all) by (intros b; constructor; auto).
  assert (M : map (fun w : gostring => w) all = all) by apply map_id.
  assert (W : forall o d d', readable (w2v_Verbose o) (w2v_LogBatch o) d all -> readable (w2v_Verbose o) (w2v_LogBatch o) d' all ->
    forall p s m op, (exists c, w2v_trained exp lower rand next lr o d (W2v c p s m op)) -> (exists c', w2v_trained exp lower rand next lr o d' (W2v c' p s m op))).
  { intros o d d' H1 H2 p s m op (c & H). rewrite <- M in H2. eexists. apply (C104_word2vec exp lower _ rand next lr o d d' all (RS _) H1 H2). eexists. split; [exact H|]. reflexivity. }
  assert (G : forall o d d', readable (glv_Verbose o) (glv_LogBatch o) d all -> readable (glv_Verbose o) (glv_LogBatch o) d' all ->
    forall g, glv_trained lower rand flog fpow order o d g -> glv_trained lower rand flog fpow order o d' g).
  { intros o d d' H1 H2 g H. rewrite <- M in H2. apply (C104_glove lower _ rand flog fpow order o d d' all (RS _) H1 H2). exists g. split; [exact H|]. rewrite Rename.respelled_id. destruct g; reflexivity. }
  assert (L : forall o d d', readable (lex_Verbose o) (lex_BatchSize o) d all -> readable (lex_Verbose o) (lex_BatchSize o) d' all ->
    forall p s it, (exists c, lxv_trained lower rand flog fpow order next lr o d (Lxv c p s it)) -> (exists c', lxv_trained lower rand flog fpow order next lr o d' (Lxv c' p s it))).
  { intros o d d' H1 H2 p s it (c & H). rewrite <- M in H2. eexists. apply (C104_lexvec lower _ rand flog fpow order next lr o d d' all (RS _) H1 H2). eexists. split; [exact H|]. reflexivity. }
  split; [|split]; intros o H1 H2; intros; split; eauto.
Qed.
Print Assumptions C104_layout.

(** C105. ToLower: training with it on a text is training without it on the lower-cased text (word2vec
    always; GloVe and LexVec for in-memory corpora - for file-backed ones see C11). *)
Theorem C105_word2vec : forall exp lower rand next lr o doc doc' all, w2v_ToLower o = false ->
  readable (w2v_Verbose o) (w2v_LogBatch o) doc all -> readable (w2v_Verbose o) (w2v_LogBatch o) doc' (map lower all) ->
  forall w, w2v_trained exp lower rand next lr (w2v_apply W_ToLower o) doc w <->
    exists c', w2v_trained exp lower rand next lr o doc' (W2v c' (wv_param w) (wv_samples w) (wv_mod w) (wv_opt w)) /\
      wv_corpus w = {| c_doc := doc; c_dic := c_dic c'; c_cooc := c_cooc c'; c_len := c_len c'; c_idoc := c_idoc c'; c_lower := true; c_max := c_max c'; c_min := c_min c' |}.
Proof.
  intros exp lower rand next lr o doc doc' all HO HR HR' w.
  pose proof (Rename.w2v_rn exp lower (fun w => w) rand o false true doc' doc (map lower all) all HR' HR ltac:(symmetry; apply map_id) ltac:(auto) next lr w) as H.
  assert (EO : Rename.w2v_lc false o = o) by (rewrite <- HO; apply Rename.w2v_lc_same). rewrite Rename.w2v_lc_on, EO in H. rewrite H. clear H EO. split.
  - intros ([c p s m op] & H1 & ->). unfold Rename.respelled_w2v, respelled. cbn [wv_corpus wv_param wv_samples wv_mod wv_opt]. exists c. rewrite Rename.respelled_id. auto.
  - intros (c' & H1 & E). eexists. split; [exact H1|]. unfold Rename.respelled_w2v, respelled. cbn [wv_corpus wv_param wv_samples wv_mod wv_opt]. rewrite Rename.respelled_id, <- E. destruct w; reflexivity.
Qed.
Print Assumptions C105_word2vec.

Theorem C105_glove : forall lower rand flog fpow order o doc doc' all, glv_ToLower o = false -> glv_DocInMemory o = true ->
  readable (glv_Verbose o) (glv_LogBatch o) doc all -> readable (glv_Verbose o) (glv_LogBatch o) doc' (map lower all) ->
  forall g, glv_trained lower rand flog fpow order (glv_apply G_ToLower o) doc g <-> glv_trained lower rand flog fpow order o doc' g.
Proof.
  intros lower rand flog fpow order o doc doc' all HO HM HR HR' g.
  pose proof (Rename.glv_rn lower (fun w => w) rand flog fpow order o false true doc' doc (map lower all) all HR' HR ltac:(symmetry; apply map_id) ltac:(auto) (or_introl HM) g) as H.
  assert (EO : Rename.glv_lc false o = o) by (rewrite <- HO; apply Rename.glv_lc_same). rewrite Rename.glv_lc_on, EO in H. rewrite H. clear H EO. unfold Rename.respelled_glv. split.
  - intros ([d p s it] & H1 & ->). cbn [gl_dic gl_param gl_solver gl_items]. rewrite Rename.respelled_id. exact H1.
  - intros H1. exists g. split; [exact H1|]. rewrite Rename.respelled_id. destruct g; reflexivity.
Qed.
Print Assumptions C105_glove.

Theorem C105_lexvec : forall lower rand flog fpow order next lr o doc doc' all, lex_ToLower o = false -> lex_DocInMemory o = true ->
  readable (lex_Verbose o) (lex_BatchSize o) doc all -> readable (lex_Verbose o) (lex_BatchSize o) doc' (map lower all) ->
  forall l, lxv_trained lower rand flog fpow order next lr (lex_apply L_ToLower o) doc l <->
    exists c', lxv_trained lower rand flog fpow order next lr o doc' (Lxv c' (lx_param l) (lx_samples l) (lx_items l)) /\
      lx_corpus l = {| c_doc := doc; c_dic := c_dic c'; c_cooc := c_cooc c'; c_len := c_len c'; c_idoc := c_idoc c'; c_lower := true; c_max := c_max c'; c_min := c_min c' |}.
Proof.
  intros lower rand flog fpow order next lr o doc doc' all HO HM HR HR' l.
  pose proof (Rename.lxv_rn lower (fun w => w) rand flog fpow order o false true doc' doc (map lower all) all HR' HR ltac:(symmetry; apply map_id) ltac:(auto) (or_introl HM) next lr l) as H.
  assert (EO : Rename.lex_lc false o = o) by (rewrite <- HO; apply Rename.lex_lc_same). rewrite Rename.lex_lc_on, EO in H. rewrite H. clear H EO. split.
  - intros ([c p s it] & H1 & ->). unfold Rename.respelled_lxv, respelled. cbn [lx_corpus lx_param lx_samples lx_items]. exists c. rewrite Rename.respelled_id. auto.
  - intros (c' & H1 & E). eexists. split; [exact H1|]. unfold Rename.respelled_lxv, respelled. cbn [lx_corpus lx_param lx_samples lx_items]. rewrite Rename.respelled_id, <- E. destruct l; reflexivity.
Qed.
Print Assumptions C105_lexvec.

(** A text with capital letters, its respelling, the same words laid out differently, and its lower-case form. *)
Lemma readable_scan lb r ws : scanner (rd_seek0 r) = (ws, None) -> rd_err r = false -> forallb (fun w => Z.of_nat (length w) <=? 65533) ws = true -> readable false lb r ws.
Proof.
  intros E He Hf. destruct (Reader.scanner_spec r ws None E) as (more & T & _ & _ & H2).
  split; [auto|]. split; [|split; [exact He|]].
  - destruct more as [|w more]; [rewrite app_nil_r in T; exact T|]. destruct H2 as (H2 & _); discriminate.
  - rewrite forallb_forall in Hf. apply Forall_forall. intros w Hw. apply Hf in Hw. apply Z.leb_le. exact Hw.
Qed.
Definition text (s : string) : reader := {| rd_data := bs s; rd_pos := 0; rd_err := false |}.
Definition to_lower (w : gostring) : gostring := map (fun b => match b with x41 => x61 | x42 => x62 | x43 => x63 | x44 => x64 | _ => b end) w.
Definition swap (w : gostring) : gostring := map (fun b => match b with x41 => x43 | x61 => x63 | x43 => x41 | x63 => x61 | x42 => x44 | x62 => x64 | x44 => x42 | x64 => x62 | _ => b end) w.
Example C104_case :
  let all := map bs ["A"; "b"; "a"; "Bb"]%string in
  respells to_lower true swap all /\ map swap all = map bs ["C"; "d"; "c"; "Dd"]%string /\
  readable false 0 (text "A b a Bb") all /\ readable false 0 (text " A b   a Bb ") all /\
  readable false 0 (text "C d c Dd") (map swap all) /\ readable false 0 (text "a b a bb") (map to_lower all).
Proof.
  intros all. split; [|split; [reflexivity|]].
  - constructor; [reflexivity| |].
    + intros v w Hv Hw. cbn in Hv, Hw. repeat (destruct Hv as [<-|Hv]; [repeat (destruct Hw as [<-|Hw]; [cbn; intros E; first [reflexivity|discriminate E]|]); destruct Hw|]). destruct Hv.
    + intros _ w Hw. cbn in Hw. repeat (destruct Hw as [<-|Hw]; [reflexivity|]). destruct Hw.
  - repeat split; try (left; reflexivity); try reflexivity;
      match goal with |- tokens (rd_data ?r) ?ws => apply (readable_scan 0 r ws) | |- Forall _ ?ws => repeat constructor; cbn; lia end; vm_compute; reflexivity.
Qed.
Example C105_case :
  let o := lex_new 1 [L_Dim 2; L_MinCount 0; L_DocInMemory] in
  lex_ToLower o = false /\ lex_DocInMemory o = true /\
  match lxv_setup to_lower (fun k => f_of_Z (Z.of_nat k)) (fun x => x) (fun x _ => x) (fun m => m) (lex_apply L_ToLower o) (text "A b a Bb") with
  | Ret l => dict_len (c_dic (lx_corpus l)) = 3%nat | _ => False end.
Proof. vm_compute. auto. Qed.
