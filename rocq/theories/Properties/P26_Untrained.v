(** * C86: words that are not trained keep their initial vectors

    MinCount and MaxCount drop words from the training text, but not from the dictionary: Save writes
    them too. [kept]: Spec/Filter.v; [during]: every moment of every iteration under any interleaving of
    the goroutines' statements (Spec/Race.v). *)
From Coq Require Import Lia Sorting.Permutation.
From Verif.Lib Require Import Go F64 F64Facts.
From Verif.Spec Require Import Words Filter Rows Readable Runs Race.
From Verif.Model Require Import Dictionary Reader Corpus Matrix Sigmoid Word2vec Glove Lexvec Options Train Vector Sched Run Race.
From Verif.Properties Require P23_Runs.
From Verif.Model Require RaceHS.
From Verif.Spec Require RaceHS.
From Verif.Properties Require P43_HuffmanRaces.
From Verif.Proofs Require RaceHSRows.
From Verif.Proofs Require Word2vec RaceRows Untrained RunW2v RunModels RunGlove TrainProps Vector RaceRuns.
Local Open Scope Z_scope.

(** C86. word2vec, both optimizers: the vector of a dropped word after Train is the one it started
    with, and this is what WordVector gives, except for the sum asked for by agg. *)
Theorem C86_word2vec : forall exp lower rand next lr o doc all w0 w word,
  w2v_usable lower o doc all -> w2v_setup lower rand o doc = Ret w0 -> w2v_trained exp lower rand next lr o doc w ->
  let text := used_words lower (w2v_ToLower o) all in
  In word text -> kept (w2v_MaxCount o) (w2v_MinCount o) (occurrences word text) = false ->
  exists id row, dict_id (c_dic (wv_corpus w0)) word = (id, true) /\
    mat_slice (wv_param w0) (Z.of_nat id) = Ret row /\ mat_slice (wv_param w) (Z.of_nat id) = Ret row /\
    forall typ, typ <> "agg"%string -> exists out, w2v_word_vector o w typ = Ret out /\ mat_slice out (Z.of_nat id) = Ret row.
Proof.
  intros exp lower rand next lr o doc all w0 w word HU HS (w0' & x & v & HS' & Hx & (l & HR & _) & ->) text Hw Hk.
  rewrite HS in HS'. injection HS' as <-.
  destruct (RunW2v.w2v_ready_w0 exp lower rand o doc all HU w0 HS) as (Ed & _ & _ & rows & Em & A & L & HO).
  destruct (RunW2v.w2v_chunks exp lower rand o doc all HU w0 HS x Hx) as (_ & _ & _ & _ & Ec).
  destruct (Untrained.dropped_id _ _ _ _ Hw Hk) as (Hid & Hout). fold text in Ec, Ed. rewrite <- Ec in Hout.
  change (Proofs.Sched.pending x) with (parts x) in Hout.
  pose proof (Untrained.known_id _ _ Hw) as Ek. set (id := fst (dict_id (dict_add dict_new text) word)) in *.
  rewrite TrainProps.dict_len_distinct in Hid.
  destruct (Untrained.w2_reach_keeps exp lower rand o doc all w0 x HU HS Hx id Hid Hout _ next lr l v rows Em A L HR) as (rows' & Em' & A' & L' & HO' & Er).
  exists id, (nth id rows []). rewrite Ed. split; [exact Ek|]. cbn [wv_param].
  rewrite Em, Em'. rewrite !Word2vec.of_rows_slice by (auto; rewrite ?L, ?L'; exact Hid). rewrite Er. split; [reflexivity|]. split; [reflexivity|].
  intros typ Htyp.
  assert (HV : Datatypes.length (distinct text) = dict_len (c_dic (wv_corpus w0))) by (rewrite Ed; symmetry; apply TrainProps.dict_len_distinct).
  fold text in L'. rewrite HV in L', Hid.
  destruct (Untrained.w2v_single o (W2v (wv_corpus w0) (wv_m v) (wv_samples w0) (wv_mod w0) (wv_o v)) typ rows' (wu_dim _ _ _ _ HU) Em' A' L' Htyp) as (out & Eo & Ho).
  rewrite <- Em'. exists out. split; [exact Eo|]. rewrite <- Er. apply Ho. exact Hid.
Qed.
Print Assumptions C86_word2vec.

(** C86. word2vec with negative sampling, at every moment of the training. *)
Theorem C86_word2vec_races : forall exp lower rand o doc all w0 x next lr scratch word,
  w2v_usable lower o doc all -> w2v_OptimizerType o = "ns"%string ->
  w2v_setup lower rand o doc = Ret w0 -> w2v_source lower o w0 = Ret x ->
  let text := used_words lower (w2v_ToLower o) all in
  In word text -> kept (w2v_MaxCount o) (w2v_MinCount o) (occurrences word text) = false ->
  exists id row, dict_id (c_dic (wv_corpus w0)) word = (id, true) /\ mat_slice (wv_param w0) (Z.of_nat id) = Ret row /\
    forall k n s, during (sigmoid (sig_table exp)) (w2v_workers o w0 scratch (parts x)) (w2v_mem next lr w0) k n s ->
      mat_slice (sm_p (y_mem s)) (Z.of_nat id) = Ret row.
Proof.
  intros exp lower rand o doc all w0 x next lr scratch word HU HO HS Hx text Hw Hk.
  destruct (RunW2v.w2v_ready_w0 exp lower rand o doc all HU w0 HS) as (Ed & _ & _ & rows & Em & A & L & _).
  destruct (RunW2v.w2v_chunks exp lower rand o doc all HU w0 HS x Hx) as (_ & _ & _ & _ & Ec).
  destruct (Untrained.dropped_id _ _ _ _ Hw Hk) as (Hid & Hout). fold text in Ec, Ed. rewrite <- Ec in Hout.
  change (Proofs.Sched.pending x) with (parts x) in Hout.
  pose proof (Untrained.known_id _ _ Hw) as Ek. set (id := fst (dict_id (dict_add dict_new text) word)) in *.
  rewrite TrainProps.dict_len_distinct in Hid.
  assert (E0 : mat_slice (wv_param w0) (Z.of_nat id) = Ret (nth id rows [])) by (rewrite Em; apply Word2vec.of_rows_slice; [exact A|rewrite L; exact Hid]).
  exists id, (nth id rows []). rewrite Ed. split; [exact Ek|]. split; [exact E0|]. intros k n s HD.
  rewrite <- E0. apply (RaceRows.during_writes (fun j => j <> Z.of_nat id) (sigmoid (sig_table exp)) (w2v_workers o w0 scratch (parts x)) (w2v_mem next lr w0) k n s).
  - apply Forall_forall. intros p Hp. apply in_map_iff in Hp. destruct Hp as (dd & <- & Hdd). apply RaceRows.w2v_worker_writes.
    intros i Hi E. apply Nat2Z.inj in E. subst i. apply Hout. apply in_concat. eauto.
  - exact HD.
  - tauto.
Qed.
Print Assumptions C86_word2vec_races.

(** C86. word2vec with hierarchical softmax, statement by statement (also inside GetPath): the same at every moment of every iteration. *)
Theorem C86_word2vec_huffman_races : forall sig lower rand o doc all w0 x next lr scratch word,
  w2v_usable lower o doc all -> w2v_OptimizerType o = "hs"%string ->
  w2v_setup lower rand o doc = Ret w0 -> w2v_source lower o w0 = Ret x ->
  let text := used_words lower (w2v_ToLower o) all in
  In word text -> kept (w2v_MaxCount o) (w2v_MinCount o) (occurrences word text) = false ->
  exists id row tree set, dict_id (c_dic (wv_corpus w0)) word = (id, true) /\ mat_slice (wv_param w0) (Z.of_nat id) = Ret row /\
    wv_opt w0 = HS tree set (w2v_MaxDepth o) /\
    forall k s, Spec.RaceHS.hduring (RaceHS.hs_workers sig o w0 scratch (parts x)) (RaceHS.hs_mem next lr (wv_param w0) tree) k s ->
      mat_slice (RaceHS.hm_p (RaceHS.hy_mem s)) (Z.of_nat id) = Ret row.
Proof.
  intros sig lower rand o doc all w0 x next lr scratch word HU HO HS Hx text Hw Hk. set (exp := fun _ : f64 => fzero).
  destruct (RunW2v.w2v_ready_w0 exp lower rand o doc all HU w0 HS) as (Ed & _ & _ & rows & Em & A & L & _).
  destruct (RunW2v.w2v_chunks exp lower rand o doc all HU w0 HS x Hx) as (_ & _ & _ & _ & Ec).
  destruct (P43_HuffmanRaces.C107_start lower rand o doc all w0 x next lr HU HO HS Hx) as (tree & set & _ & _ & _ & _ & Eo & _).
  destruct (Untrained.dropped_id _ _ _ _ Hw Hk) as (Hid & Hout). fold text in Ec, Ed. rewrite <- Ec in Hout.
  change (Proofs.Sched.pending x) with (parts x) in Hout.
  pose proof (Untrained.known_id _ _ Hw) as Ek. set (id := fst (dict_id (dict_add dict_new text) word)) in *.
  rewrite TrainProps.dict_len_distinct in Hid.
  assert (E0 : mat_slice (wv_param w0) (Z.of_nat id) = Ret (nth id rows [])) by (rewrite Em; apply Word2vec.of_rows_slice; [exact A|rewrite L; exact Hid]).
  exists id, (nth id rows []), tree, set. rewrite Ed. split; [exact Ek|]. split; [exact E0|]. split; [exact Eo|]. intros k s HD.
  rewrite <- E0. apply (RaceHSRows.hduring_writes (fun j => j <> Z.of_nat id) _ _ _ _) with (2 := HD); [|tauto].
  unfold RaceHS.hs_workers. rewrite Eo. apply Forall_forall. intros p Hp. apply in_map_iff in Hp. destruct Hp as (dd & <- & Hdd).
  apply RaceHSRows.worker_hwrites. intros i Hi E. apply Nat2Z.inj in E. subst i. apply Hout. apply in_concat. eauto.
Qed.
Print Assumptions C86_word2vec_huffman_races.

(** C86. LexVec: the word's own row; its context row may serve as a negative sample. WordVector with agg
    gives the own row (C49). *)
Theorem C86_lexvec : forall lower rand flog fpow order next lr o doc all l0 l word, (forall m, Permutation (order m) m) ->
  lxv_usable lower o doc all -> lxv_setup lower rand flog fpow order o doc = Ret l0 ->
  lxv_trained lower rand flog fpow order next lr o doc l ->
  let text := used_words lower (lex_ToLower o) all in
  In word text -> kept (lex_MaxCount o) (lex_MinCount o) (occurrences word text) = false ->
  exists id row, dict_id (c_dic (lx_corpus l0)) word = (id, true) /\
    mat_slice (lx_param l0) (Z.of_nat id) = Ret row /\ mat_slice (lx_param l) (Z.of_nat id) = Ret row /\
    exists out, lxv_word_vector o l "agg" = Ret out /\ mat_slice out (Z.of_nat id) = Ret row.
Proof.
  intros lower rand flog fpow order next lr o doc all l0 l word HP HU HS (l0' & x & v & HS' & Hx & (ll & HR & _) & ->) text Hw Hk.
  rewrite HS in HS'. injection HS' as <-.
  destruct (RunModels.lxv_ready_l0 lower rand flog fpow order o doc all HU HP l0 HS) as (rows & Ed & _ & Em & A & L & _).
  destruct (RunModels.lxv_chunks lower rand flog fpow order o doc all HU HP l0 HS x Hx) as (_ & _ & _ & _ & Ec).
  destruct (Untrained.dropped_id _ _ _ _ Hw Hk) as (Hid & Hout). fold text in Ec, Ed. rewrite <- Ec in Hout.
  change (Proofs.Sched.pending x) with (parts x) in Hout.
  pose proof (Untrained.known_id _ _ Hw) as Ek. set (id := fst (dict_id (dict_add dict_new text) word)) in *.
  rewrite TrainProps.dict_len_distinct in Hid. fold text in L.
  destruct (Untrained.lx_reach_keeps lower rand flog fpow order o doc all l0 x HP HU HS Hx id Hid Hout _ next lr ll v rows Em A L HR) as (rows' & Em' & A' & L' & Er).
  fold text in L'.
  exists id, (nth id rows []). rewrite Ed. split; [exact Ek|]. cbn [lx_param].
  rewrite Em, Em'. rewrite !Word2vec.of_rows_slice by (auto; lia). rewrite Er. split; [reflexivity|]. split; [reflexivity|].
  assert (HV : Datatypes.length (distinct text) = dict_len (c_dic (lx_corpus l0))) by (rewrite Ed; symmetry; apply TrainProps.dict_len_distinct).
  rewrite HV in L', Hid.
  destruct (Untrained.lxv_own o (Lxv (lx_corpus l0) (lv_m v) (lx_samples l0) (lx_items l0)) rows' (lu_dim _ _ _ _ HU) Em' A' L') as (out & Eo & Ho).
  rewrite <- Em'. exists out. split; [exact Eo|]. rewrite <- Er. apply Ho. exact Hid.
Qed.
Print Assumptions C86_lexvec.

Theorem C86_lexvec_races : forall lower rand flog fpow order o doc all l0 x next lr sig word, (forall m, Permutation (order m) m) ->
  lxv_usable lower o doc all -> lxv_setup lower rand flog fpow order o doc = Ret l0 -> lxv_source lower o l0 = Ret x ->
  let text := used_words lower (lex_ToLower o) all in
  In word text -> kept (lex_MaxCount o) (lex_MinCount o) (occurrences word text) = false ->
  exists id row, dict_id (c_dic (lx_corpus l0)) word = (id, true) /\ mat_slice (lx_param l0) (Z.of_nat id) = Ret row /\
    forall k n s, during sig (lxv_workers o l0 (parts x)) (lxv_mem next lr l0) k n s ->
      mat_slice (sm_p (y_mem s)) (Z.of_nat id) = Ret row.
Proof.
  intros lower rand flog fpow order o doc all l0 x next lr sig word HP HU HS Hx text Hw Hk.
  destruct (RunModels.lxv_ready_l0 lower rand flog fpow order o doc all HU HP l0 HS) as (rows & Ed & _ & Em & A & L & _).
  destruct (RunModels.lxv_chunks lower rand flog fpow order o doc all HU HP l0 HS x Hx) as (_ & _ & _ & _ & Ec).
  destruct (Untrained.dropped_id _ _ _ _ Hw Hk) as (Hid & Hout). fold text in Ec, Ed. rewrite <- Ec in Hout.
  change (Proofs.Sched.pending x) with (parts x) in Hout.
  pose proof (Untrained.known_id _ _ Hw) as Ek. set (id := fst (dict_id (dict_add dict_new text) word)) in *.
  rewrite TrainProps.dict_len_distinct in Hid. fold text in L.
  assert (E0 : mat_slice (lx_param l0) (Z.of_nat id) = Ret (nth id rows [])) by (rewrite Em; apply Word2vec.of_rows_slice; [exact A|rewrite L; lia]).
  exists id, (nth id rows []). rewrite Ed. split; [exact Ek|]. split; [exact E0|]. intros k n s HD.
  rewrite <- E0. apply (RaceRows.during_writes (fun j => j <> Z.of_nat id) sig (lxv_workers o l0 (parts x)) (lxv_mem next lr l0) k n s).
  - pose proof (lu_words _ _ _ _ HU) as HV. fold text in HV.
    apply Forall_forall. intros p Hp. apply in_map_iff in Hp. destruct Hp as (dd & <- & Hdd).
    rewrite Ed, TrainProps.dict_len_distinct. apply RaceRows.lex_worker_writes.
    + intros i Hi E. apply Nat2Z.inj in E. subst i. apply Hout. apply in_concat. eauto.
    + lia.
    + intros j Hj. lia.
  - exact HD.
  - tauto.
Qed.
Print Assumptions C86_lexvec_races.

(** C86. GloVe does not look at MinCount and MaxCount (C87); what stays as it was are both rows of a
    word of which no pair was counted. *)
Theorem C86_glove_races : forall lower rand flog fpow order o doc all g0 x next lr sig id, (forall m, Permutation (order m) m) ->
  glv_usable lower o doc all -> glv_setup lower rand flog fpow order o doc = Ret g0 -> glv_source o g0 = Ret x ->
  let V := dict_len (gl_dic g0) in
  (id < V)%nat -> (forall it, In it (gl_items g0) -> it_l1 it <> Z.of_nat id /\ it_l2 it <> Z.of_nat id) ->
  forall k n s, during sig (glv_workers o g0 (parts x)) (glv_mem next lr g0) k n s ->
    mat_slice (sm_p (y_mem s)) (Z.of_nat id) = mat_slice (gl_param g0) (Z.of_nat id) /\
    mat_slice (sm_p (y_mem s)) (Z.of_nat (id + V)) = mat_slice (gl_param g0) (Z.of_nat (id + V)).
Proof.
  intros lower rand flog fpow order o doc all g0 x next lr sig id HP HU HS Hx V Hid HN k n s HD.
  destruct (RunGlove.glv_chunks lower rand flog fpow order o doc all HU HP g0 HS x Hx) as (_ & Ec & _ & HF).
  rewrite <- (RaceRuns.glv_V lower rand flog fpow order o doc all g0 HP HU HS) in HF. fold V in HF.
  change (Proofs.Sched.pending x) with (parts x) in *.
  assert (HW : forall j, j = Z.of_nat id \/ j = Z.of_nat (id + V) -> mat_slice (sm_p (y_mem s)) j = mat_slice (gl_param g0) j).
  { intros j Hj. apply (RaceRows.during_writes (fun j => ~ (j = Z.of_nat id \/ j = Z.of_nat (id + V))) sig (glv_workers o g0 (parts x)) (glv_mem next lr g0) k n s); [|exact HD|tauto].
    apply Forall_forall. intros p Hp. apply in_map_iff in Hp. destruct Hp as (its & <- & Hits). apply RaceRows.items_writes.
    apply Forall_forall. intros it Hit. assert (In it (gl_items g0)) as Hin by (rewrite <- Ec; apply in_concat; eauto).
    rewrite Forall_forall in HF. specialize (HF its Hits). rewrite Forall_forall in HF. specialize (HF it Hit). unfold AdaGrad.item_in in HF.
    specialize (HN it Hin). fold V. lia. }
  split; apply HW; auto.
Qed.
Print Assumptions C86_glove_races.

(** The text a b a with MinCount 2: b is dropped; a, the only word left, is all the goroutines get. *)
Example C86_case :
  let id := fun w : gostring => w in let rand := fun _ : nat => f_dec 25 2 in
  let lo := lex_new 2 [L_Dim 2; L_MinCount 2; L_DocInMemory; L_Relation "co"] in
  let wo := w2v_new 2 [W_Dim 2; W_MinCount 2; W_DocInMemory; W_Optimizer "hs"; W_MaxDepth 10] in
  lxv_usable id lo P23_Runs.aba P23_Runs.aba_words /\ w2v_usable id wo P23_Runs.aba P23_Runs.aba_words /\
  kept (w2v_MaxCount wo) (w2v_MinCount wo) (occurrences (bs "b") P23_Runs.aba_words) = false /\
  match lxv_setup id rand (fun x => x) (fun x _ => x) (fun m => m) lo P23_Runs.aba with
  | Ret l0 => match lxv_source id lo l0 with Ret x => parts x | _ => [] end
  | _ => [] end = [[0]; [0]]%nat.
Proof.
  intros id rand lo wo.
  split; [constructor; cbn -[Z.mul Z.pow]; auto using P23_Runs.aba_readable; try lia; try tauto; vm_compute; discriminate|].
  split; [constructor; cbn -[Z.mul Z.pow]; auto using P23_Runs.aba_readable; try lia; try tauto; vm_compute; discriminate|].
  split; vm_compute; reflexivity.
Qed.
