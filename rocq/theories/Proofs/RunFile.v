(** * File-backed runs with a single batch *)
From Coq Require Import Lia Permutation.
From Verif.Lib Require Import Go F64 ListFacts Tac.
From Verif.Spec Require Import Words Tokens Filter Readable Runs Sequential OneGoroutine.
From Verif.Model Require Import Dictionary Reader Cooc Corpus Matrix Subsample Huffman Sigmoid Word2vec Glove Lexvec LearningRate Options Train Sched Run.
From Verif.Proofs Require Import Corpus.
From Verif.Proofs Require RunSetup RunOne RunW2v RunModels.
Local Open Scope Z_scope.

(** What set-up builds besides the corpus depends on the dictionary only. *)
Definition w2v_rest (rand : nat -> f64) (o : w2v_opts) (d : dict) : outcome (matrix * list f64 * mod_kind * optimizer) :=
  let V := Z.of_nat (dict_len d) in let dim := w2v_Dim o in
  obind (mat_new V dim (fill_row (centered rand dim)) 0%nat) (fun '(k, param) =>
  obind (subsample_new d (w2v_SubsampleThreshold o)) (fun samples =>
  obind (if String.eqb (w2v_ModelType o) skipgram_type then new_mod SkipGram (w2v_Goroutines o) dim
         else if String.eqb (w2v_ModelType o) cbow_type then new_mod Cbow (w2v_Goroutines o) dim
         else Err "invalid model"%string) (fun md =>
  obind (if String.eqb (w2v_OptimizerType o) ns_type then
           obind (mat_new V dim (fill_row (centered rand dim)) k) (fun '(_, ctx) =>
           Ret (NS ctx (w2v_NegativeSampleSize o)))
         else if String.eqb (w2v_OptimizerType o) hs_type then
           obind (huffman_tree d dim) (fun '(h, set) => Ret (HS h set (w2v_MaxDepth o)))
         else Err "invalid optimizer"%string) (fun opt =>
  Ret (param, samples, md, opt))))).

Lemma w2v_setup_rest lower rand o doc w0 : w2v_setup lower rand o doc = Ret w0 ->
  w2v_rest rand o (c_dic (wv_corpus w0)) = Ret (wv_param w0, wv_samples w0, wv_mod w0, wv_opt w0).
Proof.
  unfold w2v_setup, w2v_rest. destruct (load_corpus _ _ _ _ _ _ _ _ _) as [c| |]; cbn [obind]; try discriminate. cbv zeta.
  destruct (mat_new _ _ _ 0%nat) as [[k p]| |] eqn:E1; cbn [obind]; try discriminate.
  destruct (subsample_new _ _) as [sm| |] eqn:E2; cbn [obind]; try discriminate.
  match goal with |- obind ?m _ = _ -> _ => destruct m as [md| |] eqn:E3; cbn [obind]; try discriminate end.
  match goal with |- obind ?m _ = _ -> _ => destruct m as [op| |] eqn:E4; cbn [obind]; try discriminate end.
  intros E. injection E as <-. cbn [wv_corpus wv_param wv_samples wv_mod wv_opt]. rewrite E1. cbn [obind]. rewrite E2. cbn [obind]. rewrite ?E3. cbn [obind]. rewrite E4. reflexivity.
Qed.

Definition w2v_in_memory (o : w2v_opts) : w2v_opts := w2v_apply W_DocInMemory (w2v_apply (W_Goroutines 1) o).

Lemma new_mod_ok k g dim : 1 <= g -> 0 <= dim -> new_mod k g dim = Ret k.
Proof. intros. unfold new_mod. destruct (Z.ltb_spec g 0); [lia|]. destruct (Z.ltb_spec dim 0); [lia|]. rewrite andb_false_r. reflexivity. Qed.

Lemma w2v_rest_same rand o d : 1 <= w2v_Goroutines o -> 0 <= w2v_Dim o -> w2v_rest rand (w2v_in_memory o) d = w2v_rest rand o d.
Proof.
  intros Hg Hd. unfold w2v_rest, w2v_in_memory. cbn [w2v_apply w2v_Dim w2v_SubsampleThreshold w2v_ModelType w2v_Goroutines w2v_OptimizerType w2v_NegativeSampleSize w2v_MaxDepth].
  rewrite !new_mod_ok by lia. reflexivity.
Qed.

Lemma w2v_in_memory_usable lower o doc all : w2v_usable lower o doc all -> Z.of_nat (length all) + 1 <= 2 ^ 53 -> w2v_usable lower (w2v_in_memory o) doc all.
Proof.
  intros [H1 H2 H3 H4 H5 H6 H7 H8 H9 H10] HL. unfold w2v_in_memory.
  constructor; cbn [w2v_apply w2v_Verbose w2v_LogBatch w2v_Dim w2v_Window w2v_ModelType w2v_OptimizerType w2v_MaxDepth w2v_Goroutines w2v_DocInMemory w2v_UpdateLRBatch w2v_ToLower];
    auto. lia.
Qed.

Lemma w2v_same exp lower rand o doc all next lr :
  w2v_usable lower o doc all -> w2v_DocInMemory o = false -> Z.of_nat (length all) < w2v_BatchSize o ->
  Z.of_nat (length all) < w2v_UpdateLRBatch o -> Z.of_nat (length all) + 1 <= 2 ^ 53 ->
  exists cf cm, c_dic cf = c_dic cm /\ forall w, (w2v_trained exp lower rand next lr o doc w <->
    exists p s m op, w = W2v cf p s m op /\ w2v_trained exp lower rand next lr (w2v_in_memory o) doc (W2v cm p s m op)).
Proof.
  intros HU HM HB HL H53. pose proof (w2v_in_memory_usable _ _ _ _ HU H53) as HU'.
  destruct (RunW2v.w2v_ready exp lower rand o doc all HU) as (wf & Sf).
  destruct (RunW2v.w2v_ready exp lower rand (w2v_in_memory o) doc all HU') as (wm & Sm).
  exists (wv_corpus wf), (wv_corpus wm).
  assert (D : c_dic (wv_corpus wf) = c_dic (wv_corpus wm)).
  { destruct (RunW2v.w2v_ready_w0 exp lower rand o doc all HU wf Sf) as (-> & _).
    destruct (RunW2v.w2v_ready_w0 exp lower rand (w2v_in_memory o) doc all HU' wm Sm) as (-> & _). reflexivity. }
  split; [exact D|].
  pose proof (w2v_setup_rest _ _ _ _ _ Sf) as Rf. pose proof (w2v_setup_rest _ _ _ _ _ Sm) as Rm.
  rewrite w2v_rest_same in Rm by (destruct HU; lia). rewrite <- D, Rf in Rm. injection Rm as P1 P2 P3 P4.
  pose proof (RunOne.w2v_sequential exp lower rand o doc all next lr wf HU) as Qf.
  rewrite HM in Qf. specialize (Qf HB HL Sf).
  pose proof (RunOne.w2v_sequential exp lower rand (w2v_in_memory o) doc all next lr wm HU') as Qm.
  specialize (Qm eq_refl HL Sm).
  assert (EQ : passes (w2v_trial rand (wv_samples wm)) (w2v_step (sigmoid (sig_table exp)) (wv_mod wm) (w2v_Window (w2v_in_memory o)) (w2v_Dim (w2v_in_memory o)))
      (Z.to_nat (w2v_Iter (w2v_in_memory o)))
      (id_text lower (w2v_ToLower (w2v_in_memory o)) (w2v_MaxCount (w2v_in_memory o)) (w2v_MinCount (w2v_in_memory o)) (c_dic (wv_corpus wm)) all) (w2v_start next lr wm)
    = passes (w2v_trial rand (wv_samples wf)) (w2v_step (sigmoid (sig_table exp)) (wv_mod wf) (w2v_Window o) (w2v_Dim o)) (Z.to_nat (w2v_Iter o))
      (id_text lower (w2v_ToLower o) (w2v_MaxCount o) (w2v_MinCount o) (c_dic (wv_corpus wf)) all) (w2v_start next lr wf)).
  { unfold w2v_start. rewrite <- P1, <- P2, <- P3, <- P4, D. reflexivity. }
  rewrite EQ in Qm. destruct (passes _ _ _ _ _) as [v|e|].
  - intros w. split.
    + intros H. apply Qf in H. subst w. do 4 eexists. split; [reflexivity|]. apply Qm. rewrite P2, P3. reflexivity.
    + intros (p & s & m & op & -> & H). apply Qm in H. injection H as -> -> -> ->. apply Qf. rewrite P2, P3. reflexivity.
  - destruct Qf.
  - intros w. split; [intros H; destruct (Qf _ H)|intros (p & s & m & op & _ & H); destruct (Qm _ H)].
Qed.

(** ** LexVec *)
Definition lxv_rest (rand : nat -> f64) (flog : f64 -> f64) (fpow : f64 -> f64 -> f64) (order : list (Z * f64) -> list (Z * f64)) (o : lex_opts)
  (d : dict) (len : nat) (co : option cooc) : outcome (matrix * list f64 * list (Z * f64)) :=
  let V := Z.of_nat (dict_len d) in let dim := lex_Dim o in
  obind (mat_new (V * 2) dim (fill_row (centered rand dim)) 0%nat) (fun '(_, param) =>
  obind (subsample_new d (lex_SubsampleThreshold o)) (fun samples =>
  match co with
  | None => Panic
  | Some co =>
      obind (lex_make_items flog fpow d (Z.of_nat len) (lex_RelationType o) (lex_Smooth o)
                            (lex_Verbose o) (lex_LogBatch o) (order (co_ma co)))
            (fun items => Ret (param, samples, items))
  end)).

Lemma lxv_setup_rest lower rand flog fpow order o doc l0 : lxv_setup lower rand flog fpow order o doc = Ret l0 ->
  lxv_rest rand flog fpow order o (c_dic (lx_corpus l0)) (c_len (lx_corpus l0)) (c_cooc (lx_corpus l0)) = Ret (lx_param l0, lx_samples l0, lx_items l0).
Proof.
  unfold lxv_setup, lxv_rest. destruct (load_corpus _ _ _ _ _ _ _ _ _) as [c| |]; cbn [obind]; try discriminate. cbv zeta.
  destruct (mat_new _ _ _ 0%nat) as [[k p]| |] eqn:E1; cbn [obind]; try discriminate.
  destruct (subsample_new _ _) as [sm| |] eqn:E2; cbn [obind]; try discriminate.
  destruct (c_cooc c) as [co|] eqn:E3; [|discriminate].
  destruct (lex_make_items _ _ _ _ _ _ _ _ _) as [it| |] eqn:E4; cbn [obind]; try discriminate.
  intros E. injection E as <-. cbn [lx_corpus lx_param lx_samples lx_items]. rewrite E1. cbn [obind]. rewrite E2. cbn [obind]. rewrite E3, E4. reflexivity.
Qed.

Definition lxv_in_memory (o : lex_opts) : lex_opts := lex_apply L_DocInMemory (lex_apply (L_Goroutines 1) o).

Lemma lxv_in_memory_usable lower o doc all : lxv_usable lower o doc all -> Z.of_nat (length all) + 1 <= 2 ^ 53 -> lxv_usable lower (lxv_in_memory o) doc all.
Proof.
  intros [H1 H2 H3 H4 H5 H6 H7 H8 H9] HL. unfold lxv_in_memory.
  constructor; cbn [lex_apply lex_Verbose lex_LogBatch lex_Dim lex_Window lex_RelationType lex_Goroutines lex_DocInMemory lex_UpdateLRBatch lex_ToLower lex_BatchSize];
    auto; lia.
Qed.

Lemma lxv_same lower rand flog fpow order o doc all next lr : (forall m, Permutation (order m) m) ->
  lxv_usable lower o doc all -> lex_DocInMemory o = false -> Z.of_nat (length all) < lex_BatchSize o ->
  Z.of_nat (length all) < lex_UpdateLRBatch o -> Z.of_nat (length all) + 1 <= 2 ^ 53 ->
  lex_ToLower o = false -> lex_Window o <= 2 -> lex_Window o < Z.of_nat (length all) ->
  exists cf cm, c_dic cf = c_dic cm /\ forall l, (lxv_trained lower rand flog fpow order next lr o doc l <->
    exists p s it, l = Lxv cf p s it /\ lxv_trained lower rand flog fpow order next lr (lxv_in_memory o) doc (Lxv cm p s it)).
Proof.
  intros HP HU HM HB HL H53 Hl Hw Hn. pose proof (lxv_in_memory_usable _ _ _ _ HU H53) as HU'.
  destruct (RunModels.lxv_ready lower rand flog fpow order o doc all HU HP) as (wf & _ & Sf & _).
  destruct (RunModels.lxv_ready lower rand flog fpow order (lxv_in_memory o) doc all HU' HP) as (wm & _ & Sm & _).
  exists (lx_corpus wf), (lx_corpus wm).
  assert (D : c_dic (lx_corpus wf) = c_dic (lx_corpus wm) /\ c_len (lx_corpus wf) = c_len (lx_corpus wm) /\ c_cooc (lx_corpus wf) = c_cooc (lx_corpus wm)).
  { destruct (lu_text _ _ _ _ HU) as (Hv & HT & HE & HF).
    pose proof (lu_window _ _ _ _ HU) as HW.
    pose proof (fs_agrees_lemma lower (lex_Verbose o) (lex_BatchSize o) doc (lex_MaxCount o) (lex_MinCount o) all increment (Z.to_nat (lex_Window o))
      {| co_typ := increment; co_ma := [] |} Hv HT HE HF eq_refl ltac:(lia) ltac:(lia)) as H0. cbv zeta in H0. rewrite Z2Nat.id in H0 by lia.
    pose proof (RunSetup.load_corpus_fst _ _ _ _ _ _ _ _ _ _ (RunSetup.lxv_setup_corpus _ _ _ _ _ _ _ _ Sf)) as Cf.
    pose proof (RunSetup.load_corpus_fst _ _ _ _ _ _ _ _ _ _ (RunSetup.lxv_setup_corpus _ _ _ _ _ _ _ _ Sm)) as Cm.
    rewrite HM, Hl in Cf.
    change (lex_ToLower (lxv_in_memory o)) with (lex_ToLower o) in Cm. rewrite Hl in Cm.
    change (lx_corpus wm = fst (mem_load lower (lex_Verbose o) (lex_BatchSize o) (corpus_new doc false (lex_MaxCount o) (lex_MinCount o))
      (Some {| w_type := increment; w_window := lex_Window o |}))) in Cm.
    destruct (fs_load _ _ _ _ _) as [cf of], (mem_load _ _ _ _ _) as [cm om]. cbn [fst] in Cf, Cm. rewrite Cf, Cm. tauto. }
  destruct D as (D & Dl & Dc). split; [exact D|].
  pose proof (lxv_setup_rest _ _ _ _ _ _ _ _ Sf) as Rf. pose proof (lxv_setup_rest _ _ _ _ _ _ _ _ Sm) as Rm.
  change (lxv_rest rand flog fpow order (lxv_in_memory o)) with (lxv_rest rand flog fpow order o) in Rm.
  rewrite <- D, <- Dl, <- Dc, Rf in Rm. injection Rm as P1 P2 P3.
  pose proof (RunOne.lxv_sequential lower rand flog fpow order o doc all next lr wf HU HP) as Qf.
  rewrite HM in Qf. destruct (Qf HB HL Sf) as (v & Ef & If).
  pose proof (RunOne.lxv_sequential lower rand flog fpow order (lxv_in_memory o) doc all next lr wm HU' HP eq_refl HL Sm) as (v' & Em & Im).
  assert (EQ : v' = v).
  { change (lxv_step (lxv_in_memory o)) with (lxv_step o) in Em.
    change (Z.to_nat (lex_Iter (lxv_in_memory o))) with (Z.to_nat (lex_Iter o)) in Em.
    change (id_text lower (lex_ToLower (lxv_in_memory o)) (lex_MaxCount (lxv_in_memory o)) (lex_MinCount (lxv_in_memory o)))
      with (id_text lower (lex_ToLower o) (lex_MaxCount o) (lex_MinCount o)) in Em.
    unfold lxv_start in Em, Ef. rewrite <- P1, <- P2, <- P3, <- D, Ef in Em. injection Em as ->. reflexivity. }
  subst v'. intros l. rewrite If. split.
  - intros ->. do 3 eexists. split; [reflexivity|]. apply Im. rewrite P2, P3. reflexivity.
  - intros (p & s & it & -> & H). apply Im in H. injection H as -> -> ->. rewrite P2, P3. reflexivity.
Qed.

(** ** The number of goroutines *)
Lemma w2v_goroutines exp lower rand o doc all next lr g :
  w2v_usable lower o doc all -> w2v_DocInMemory o = false -> Z.of_nat (length all) < w2v_BatchSize o ->
  Z.of_nat (length all) < w2v_UpdateLRBatch o -> 1 <= g ->
  forall w, w2v_trained exp lower rand next lr (w2v_apply (W_Goroutines g) o) doc w <-> w2v_trained exp lower rand next lr o doc w.
Proof.
  intros HU HM HB HL Hg. set (o' := w2v_apply (W_Goroutines g) o).
  assert (HU' : w2v_usable lower o' doc all).
  { destruct HU as [H1 H2 H3 H4 H5 H6 H7 H8 H9 H10]. unfold o'. rewrite HM in H8.
    constructor; cbn [w2v_apply w2v_Verbose w2v_LogBatch w2v_Dim w2v_Window w2v_ModelType w2v_OptimizerType w2v_MaxDepth w2v_Goroutines w2v_DocInMemory w2v_UpdateLRBatch w2v_ToLower w2v_BatchSize];
      auto. rewrite HM. exact H8. }
  destruct (RunW2v.w2v_ready exp lower rand o doc all HU) as (wf & Sf).
  assert (Sg : w2v_setup lower rand o' doc = Ret wf).
  { rewrite <- Sf. unfold w2v_setup, o'.
    cbn [w2v_apply w2v_Verbose w2v_LogBatch w2v_Dim w2v_ModelType w2v_OptimizerType w2v_MaxDepth w2v_Goroutines w2v_DocInMemory w2v_ToLower w2v_MaxCount w2v_MinCount w2v_SubsampleThreshold w2v_NegativeSampleSize].
    rewrite !new_mod_ok by (destruct HU; lia). reflexivity. }
  pose proof (RunOne.w2v_sequential exp lower rand o doc all next lr wf HU) as Qf. rewrite HM in Qf. specialize (Qf HB HL Sf).
  pose proof (RunOne.w2v_sequential exp lower rand o' doc all next lr wf HU') as Qg.
  change (w2v_DocInMemory o') with (w2v_DocInMemory o) in Qg. rewrite HM in Qg. specialize (Qg HB HL Sg).
  change (w2v_Window o') with (w2v_Window o) in Qg. change (w2v_Dim o') with (w2v_Dim o) in Qg. change (w2v_Iter o') with (w2v_Iter o) in Qg.
  change (w2v_ToLower o') with (w2v_ToLower o) in Qg. change (w2v_MaxCount o') with (w2v_MaxCount o) in Qg. change (w2v_MinCount o') with (w2v_MinCount o) in Qg.
  destruct (passes _ _ _ _ _) as [v|e|]; [|destruct Qf|].
  - intros w. rewrite Qf, Qg. reflexivity.
  - intros w. split; intros H; [destruct (Qg _ H)|destruct (Qf _ H)].
Qed.

Lemma lxv_goroutines lower rand flog fpow order o doc all next lr g : (forall m, Permutation (order m) m) ->
  lxv_usable lower o doc all -> lex_DocInMemory o = false -> Z.of_nat (length all) < lex_BatchSize o ->
  Z.of_nat (length all) < lex_UpdateLRBatch o -> 1 <= g ->
  forall l, lxv_trained lower rand flog fpow order next lr (lex_apply (L_Goroutines g) o) doc l <-> lxv_trained lower rand flog fpow order next lr o doc l.
Proof.
  intros HP HU HM HB HL Hg. set (o' := lex_apply (L_Goroutines g) o).
  assert (HU' : lxv_usable lower o' doc all).
  { destruct HU as [H1 H2 H3 H4 H5 H6 H7 H8 H9]. unfold o'. rewrite HM in H7.
    constructor; cbn [lex_apply lex_Verbose lex_LogBatch lex_Dim lex_Window lex_RelationType lex_Goroutines lex_DocInMemory lex_UpdateLRBatch lex_ToLower lex_BatchSize];
      auto. rewrite HM. exact H7. }
  destruct (RunModels.lxv_ready lower rand flog fpow order o doc all HU HP) as (wf & _ & Sf & _).
  assert (Sg : lxv_setup lower rand flog fpow order o' doc = Ret wf) by exact Sf.
  pose proof (RunOne.lxv_sequential lower rand flog fpow order o doc all next lr wf HU HP) as Qf.
  rewrite HM in Qf. destruct (Qf HB HL Sf) as (v & Ef & If).
  pose proof (RunOne.lxv_sequential lower rand flog fpow order o' doc all next lr wf HU' HP) as Qg.
  change (lex_DocInMemory o') with (lex_DocInMemory o) in Qg. rewrite HM in Qg. destruct (Qg HB HL Sg) as (v' & Eg & Ig).
  assert (v' = v).
  { change (lxv_step o') with (lxv_step o) in Eg. change (lex_Iter o') with (lex_Iter o) in Eg.
    change (lex_ToLower o') with (lex_ToLower o) in Eg. change (lex_MaxCount o') with (lex_MaxCount o) in Eg. change (lex_MinCount o') with (lex_MinCount o) in Eg.
    rewrite Ef in Eg. injection Eg as ->. reflexivity. }
  subst v'. intros l. rewrite If, Ig. reflexivity.
Qed.
