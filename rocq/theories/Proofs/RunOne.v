(** * Runs with one goroutine are sequential programs *)
From Coq Require Import Lia Permutation.
From Verif.Lib Require Import Go F64 ListFacts Tac.
From Verif.Spec Require Import Words Filter Slices Rows Training Readable Runs Sequential OneGoroutine.
From Verif.Model Require Import Dictionary Reader Corpus ModelUtil Matrix Subsample Sigmoid Word2vec Glove Lexvec LearningRate Options Train Sched Run.
From Verif.Proofs Require Import Dictionary TrainOne TrainProps Sched.
From Verif.Proofs Require Run RunSeq RunSetup RunModels RunGlove RunW2v.
Local Open Scope Z_scope.

Lemma one_chunk {A} (l : list (list A)) : length l = 1%nat -> l = [concat l].
Proof. destruct l as [|a [|b l]]; cbn; intros H; try discriminate. rewrite app_nil_r. reflexivity. Qed.

(** ** GloVe *)
Definition glv_step (lr : f64) (V : Z) (items : list item) (pos : nat) (v : matrix * solver) : outcome (matrix * solver) :=
  match nth_error items pos with Some it => glove_train_item lr V it v | None => Panic end.

Lemma ofold_app {A S} (f : A -> S -> outcome S) : forall l1 l2 s, ofold f (l1 ++ l2) s = obind (ofold f l1 s) (ofold f l2).
Proof. induction l1 as [|a l1 IH]; intros l2 s; cbn [app ofold obind]; [reflexivity|]. destruct (f a s); cbn [obind]; auto. Qed.

Lemma glv_pass lr V items : forall todo pre v, items = pre ++ todo ->
  one_pass (fun _ v => Ret (v, true)) (glv_step lr V) items (length pre) todo v = ofold (glove_train_item lr V) todo v.
Proof.
  induction todo as [|it todo IH]; intros pre v Hi; [reflexivity|]. cbn [one_pass ofold obind]. unfold glv_step at 1.
  rewrite Hi at 1. rewrite nth_error_app2, Nat.sub_diag by lia. cbn [nth_error]. destruct (glove_train_item lr V it v); cbn [obind]; auto.
  replace (S (length pre)) with (length (pre ++ [it])) by (rewrite app_length; cbn; lia). apply IH. rewrite <- app_assoc. exact Hi.
Qed.

Lemma glv_passes lr V items : forall k v, passes (fun _ v => Ret (v, true)) (glv_step lr V) k items v = ofold (glove_train_item lr V) (concat (repeat items k)) v.
Proof.
  induction k as [|k IH]; intros v; [reflexivity|]. cbn [passes repeat concat]. rewrite ofold_app. pose proof (glv_pass lr V items items [] v eq_refl) as GP. cbn [length] in GP. rewrite GP.
  destruct (ofold _ items v); cbn [obind]; auto.
Qed.

Section Glv.
Variables (lower : gostring -> gostring) (rand : nat -> f64) (flog : f64 -> f64) (fpow : f64 -> f64 -> f64)
  (order : list (Z * f64) -> list (Z * f64)) (o : glv_opts) (doc : reader) (all : list gostring) (g0 : glv).
Hypothesis HU : glv_usable lower o doc all.
Hypothesis HP : forall m, Permutation (order m) m.
Hypothesis HG : glv_Goroutines o = 1.
Hypothesis HS : glv_setup lower rand flog fpow order o doc = Ret g0.

Lemma glv_sequential : exists m sol,
  ofold (glove_train_item (glv_Initlr o) (Z.of_nat (dict_len (gl_dic g0)))) (concat (repeat (gl_items g0) (Z.to_nat (glv_Iter o)))) (gl_param g0, gl_solver g0) = Ret (m, sol) /\
  forall g, glv_trained lower rand flog fpow order o doc g <-> g = Glv (gl_dic g0) m sol (gl_items g0).
Proof.
  destruct (RunGlove.glv_source_ok lower rand flog fpow order o doc all HU HP g0 HS) as (x & Hx).
  destruct (RunGlove.glv_chunks lower rand flog fpow order o doc all HU HP g0 HS x Hx) as (Sx & Cx & Lx & _).
  rewrite HG in Lx. change (Z.to_nat 1) with 1%nat in Lx. pose proof (one_chunk _ Lx) as Px. rewrite Cx in Px.
  set (E := glv_effects o (Z.of_nat (dict_len (gl_dic g0)))).
  assert (SEQ : forall v, trains (glv_cfg o) E (Z.to_nat (glv_Iter o)) (fun _ => x) (gl_param g0, gl_solver g0) v ->
    ofold (glove_train_item (glv_Initlr o) (Z.of_nat (dict_len (gl_dic g0)))) (concat (repeat (gl_items g0) (Z.to_nat (glv_Iter o)))) (gl_param g0, gl_solver g0) = Ret v).
  { intros v Hv. rewrite <- glv_passes. apply (RunSeq.trains_seq (glv_cfg o) E (gl_items g0) (glv_step (glv_Initlr o) (Z.of_nat (dict_len (gl_dic g0))))) with (x := x); auto.
    - intros pos v1 r Hp Hw. cbn [E glv_effects e_work] in Hw. unfold glv_step. destruct (nth_error (gl_items g0) pos); exact Hw.
    - intros n v1 _. apply (RunGlove.gl_tick_ok lower o doc all HU). }
  destruct (RunGlove.glv_completes lower rand flog fpow order o doc all HU HP g0 HS x Hx (Z.to_nat (glv_Iter o))) as ([m sol] & Ht).
  exists m, sol. split; [apply SEQ; exact Ht|]. intros g. split.
  - intros (g1 & x1 & m1 & sol1 & H1 & H2 & H3 & ->). rewrite HS in H1. injection H1 as <-. rewrite Hx in H2. injection H2 as <-.
    apply SEQ in H3. rewrite (SEQ _ Ht) in H3. injection H3 as <- <-. reflexivity.
  - intros ->. exists g0, x, m, sol. auto.
Qed.
End Glv.

(** ** Ticks that do not change the learning rate *)
Lemma lr_tick_idle p n lr : lo_verbose p = false \/ lo_logbatch p <> 0 -> 1 <= n < lo_batch p -> lr_tick p n lr = Ret lr.
Proof.
  intros HV Hn. unfold lr_tick. destruct (Z.eqb_spec (lo_batch p) 0); [lia|]. rewrite Z.rem_small by lia. destruct (Z.eqb_spec n 0); [lia|].
  destruct (lo_verbose p); [|reflexivity]. destruct (Z.eqb_spec (lo_logbatch p) 0); [destruct HV; [discriminate|contradiction]|reflexivity].
Qed.

(** ** LexVec *)
Section Lex.
Variables (lower : gostring -> gostring) (rand : nat -> f64) (flog : f64 -> f64) (fpow : f64 -> f64 -> f64)
  (order : list (Z * f64) -> list (Z * f64)) (o : lex_opts) (doc : reader) (all : list gostring) (next : Z) (lr : f64) (l0 : lxv).
Hypothesis HU : lxv_usable lower o doc all.
Hypothesis HP : forall m, Permutation (order m) m.
Hypothesis HM : if lex_DocInMemory o then lex_Goroutines o = 1 else Z.of_nat (length all) < lex_BatchSize o.
Hypothesis HB : Z.of_nat (length all) < lex_UpdateLRBatch o.
Hypothesis HS : lxv_setup lower rand flog fpow order o doc = Ret l0.
Let text := id_text lower (lex_ToLower o) (lex_MaxCount o) (lex_MinCount o) (c_dic (lx_corpus l0)) all.

Lemma lxv_sequential : exists v,
  passes (lxv_trial rand (lx_samples l0)) (lxv_step o (lx_items l0) (Z.of_nat (dict_len (c_dic (lx_corpus l0))))) (Z.to_nat (lex_Iter o)) text
    (lxv_start next lr l0) = Ret v /\
  forall l, lxv_trained lower rand flog fpow order next lr o doc l <-> l = Lxv (lx_corpus l0) (lv_m v) (lx_samples l0) (lx_items l0).
Proof.
  destruct (RunModels.lxv_source_ok lower rand flog fpow order o doc all HU l0 HS) as (x & Hx).
  pose proof (RunSetup.lxv_setup_corpus _ _ _ _ _ _ _ _ HS) as CO. pose proof Hx as Hx'. unfold lxv_source in Hx'.
  destruct (RunModels.lxv_chunks lower rand flog fpow order o doc all HU HP l0 HS x Hx) as (Sx & _ & Bx & Lx & Cx).
  destruct (RunModels.lxv_ready_l0 lower rand flog fpow order o doc all HU HP l0 HS) as (_ & Ed & El & _).
  rewrite <- Ed in Cx. assert (Cx' : concat (pending x) = text) by exact Cx. clear Cx. rename Cx' into Cx.
  assert (L1 : length (pending x) = 1%nat).
  { destruct (lex_DocInMemory o) eqn:Em; [rewrite HM in Lx; exact (Lx eq_refl)|].
    eapply RunSetup.source_one; [exact (lu_text _ _ _ _ HU)|exact (CO)| |reflexivity|exact HM|].
    - pose proof (lu_batch _ _ _ _ HU) as HB'. rewrite Em in HB'. exact HB'.
    - exact Hx'. }
  pose proof (one_chunk _ L1) as Px. rewrite Cx in Px, Bx.
  set (E := lxv_effects rand o l0).
  assert (SEQ : forall v, trains (lxv_cfg o) E (Z.to_nat (lex_Iter o)) (fun _ => x) (lxv_start next lr l0) v ->
    passes (lxv_trial rand (lx_samples l0)) (lxv_step o (lx_items l0) (Z.of_nat (dict_len (c_dic (lx_corpus l0))))) (Z.to_nat (lex_Iter o)) text
    (lxv_start next lr l0) = Ret v).
  { intros v Hv. apply (RunSeq.trains_seq (lxv_cfg o) E text (lxv_step o (lx_items l0) (Z.of_nat (dict_len (c_dic (lx_corpus l0)))))) with (x := x); auto.
    intros n v1 Hn. cbn [E lxv_effects e_tick]. unfold lxv_tick. rewrite lr_tick_idle; [destruct v1; reflexivity|exact (lu_log _ _ _ _ HU)|].
    cbn [lxv_lr_opts lo_batch]. lia. }
  destruct (RunModels.lxv_completes lower rand flog fpow order o doc all HU HP l0 HS x Hx next lr (Z.to_nat (lex_Iter o))) as (v & Ht).
  exists v. split; [apply SEQ; exact Ht|]. intros l. split.
  - intros (l1 & x1 & v1 & H1 & H2 & H3 & ->). rewrite HS in H1. injection H1 as <-. rewrite Hx in H2. injection H2 as <-.
    apply SEQ in H3. rewrite (SEQ _ Ht) in H3. injection H3 as <-. reflexivity.
  - intros ->. exists l0, x, v. auto.
Qed.
End Lex.

(** ** word2vec *)
Lemma w2v_work_step sig md window dim doc pos v r : w2v_work sig md window dim doc pos v r -> r = w2v_step sig md window dim doc pos v.
Proof.
  intros (agg & tmp & Ha & Ht & ->). unfold w2v_step.
  assert (SB : same_but_scratch (WState (wv_next v) (wv_m v) (wv_o v) agg tmp)
    (WState (wv_next v) (wv_m v) (wv_o v) (repeat fzero (Z.to_nat dim)) (repeat fzero (Z.to_nat dim)))).
  { repeat split; cbn [s_agg s_tmp]; rewrite repeat_length; lia. }
  destruct md.
  - pose proof (sg_scratch sig window (map Z.of_nat doc) (Z.of_nat pos) (wv_lr v) _ _ SB) as H.
    destruct (sg_train_one _ _ _ _ _ _), (sg_train_one _ _ _ _ _ _); cbn [agree obind] in *; try contradiction; try congruence.
    destruct H as (-> & -> & -> & _). reflexivity.
  - rewrite (cb_scratch sig window (map Z.of_nat doc) (Z.of_nat pos) (wv_lr v) _ _ SB). reflexivity.
Qed.

Section W2v.
Variables (exp : f64 -> f64) (lower : gostring -> gostring) (rand : nat -> f64) (o : w2v_opts) (doc : reader) (all : list gostring) (next : Z) (lr : f64) (w0 : w2v).
Hypothesis HU : w2v_usable lower o doc all.
Hypothesis HM : if w2v_DocInMemory o then w2v_Goroutines o = 1 else Z.of_nat (length all) < w2v_BatchSize o.
Hypothesis HB : Z.of_nat (length all) < w2v_UpdateLRBatch o.
Hypothesis HS : w2v_setup lower rand o doc = Ret w0.
Let text := id_text lower (w2v_ToLower o) (w2v_MaxCount o) (w2v_MinCount o) (c_dic (wv_corpus w0)) all.
Let sig := sigmoid (sig_table exp).

Lemma w2v_sequential :
  match passes (w2v_trial rand (wv_samples w0)) (w2v_step sig (wv_mod w0) (w2v_Window o) (w2v_Dim o)) (Z.to_nat (w2v_Iter o)) text (w2v_start next lr w0) with
  | Ret v => forall w, w2v_trained exp lower rand next lr o doc w <-> w = W2v (wv_corpus w0) (wv_m v) (wv_samples w0) (wv_mod w0) (wv_o v)
  | Err _ => False
  | Panic => forall w, ~ w2v_trained exp lower rand next lr o doc w
  end.
Proof.
  destruct (RunW2v.w2v_source_ok lower rand o doc all HU w0 HS) as (x & Hx).
  pose proof (RunSetup.w2v_setup_corpus _ _ _ _ _ HS) as CO. pose proof Hx as Hx'. unfold w2v_source in Hx'.
  destruct (RunW2v.w2v_chunks exp lower rand o doc all HU w0 HS x Hx) as (Sx & _ & Bx & Lx & Cx).
  destruct (RunW2v.w2v_ready_w0 exp lower rand o doc all HU w0 HS) as (Ed & El & _).
  rewrite <- Ed in Cx. assert (Cx' : concat (pending x) = text) by exact Cx. clear Cx. rename Cx' into Cx.
  assert (L1 : length (pending x) = 1%nat).
  { destruct (w2v_DocInMemory o) eqn:Em; [rewrite HM in Lx; exact (Lx eq_refl)|].
    eapply RunSetup.source_one; [exact (wu_text _ _ _ _ HU)|exact (CO)| |reflexivity|exact HM|].
    - pose proof (wu_batch _ _ _ _ HU) as HB'. rewrite Em in HB'. exact HB'.
    - exact Hx'. }
  pose proof (one_chunk _ L1) as Px. rewrite Cx in Px, Bx.
  set (E := w2v_effects sig rand o w0).
  assert (HW : forall pos v r, (pos < length text)%nat -> e_work E text pos v r -> r = w2v_step sig (wv_mod w0) (w2v_Window o) (w2v_Dim o) text pos v).
  { intros pos v r _ Hw. apply w2v_work_step. exact Hw. }
  assert (HT : forall n v, (1 <= n <= length text)%nat -> e_tick E n v = Ret v).
  { intros n v1 Hn. cbn [E w2v_effects e_tick]. unfold w2v_tick. rewrite lr_tick_idle; [destruct v1; reflexivity|exact (RunW2v.w2_report _ _ _ _ HU)|].
    cbn [w2v_lr_opts lo_batch]. lia. }
  pose proof (RunSeq.trains_seq (w2v_cfg o) E text _ HW HT (Z.to_nat (w2v_Iter o)) x Sx Px (w2v_start next lr w0)) as SEQ.
  pose proof (RunSeq.fails_seq (w2v_cfg o) E text _ HW HT (Z.to_nat (w2v_Iter o)) x Sx Px (w2v_start next lr w0)) as FSEQ.
  change (e_trial E) with (w2v_trial rand (wv_samples w0)) in SEQ, FSEQ.
  assert (INV : forall w, w2v_trained exp lower rand next lr o doc w -> exists v, trains (w2v_cfg o) E (Z.to_nat (w2v_Iter o)) (fun _ => x) (w2v_start next lr w0) v /\
     w = W2v (wv_corpus w0) (wv_m v) (wv_samples w0) (wv_mod w0) (wv_o v)).
  { intros w (w1 & x1 & v1 & H1 & H2 & H3 & ->). rewrite HS in H1. injection H1 as <-. rewrite Hx in H2. injection H2 as <-. exists v1. auto. }
  destruct (RunW2v.w2v_completes exp lower rand o doc all HU w0 HS x Hx next lr (Z.to_nat (w2v_Iter o))) as [(v & Ht)|(l & v & HR & HV)].
  - rewrite (SEQ v Ht). intros w. split.
    + intros Hw. destruct (INV w Hw) as (v1 & Ht1 & ->). apply SEQ in Ht1. rewrite (SEQ v Ht) in Ht1. injection Ht1 as <-. reflexivity.
    + intros ->. exists w0, x, v. auto.
  - rewrite (FSEQ l v Panic HR HV ltac:(discriminate)). cbn [obind]. intros w Hw. destruct (INV w Hw) as (v1 & Ht1 & _). apply SEQ in Ht1.
    rewrite (FSEQ l v Panic HR HV ltac:(discriminate)) in Ht1. discriminate.
Qed.
End W2v.
