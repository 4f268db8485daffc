(** * C98: what the goroutines of word2vec and LexVec can do, as sequences of words and rate updates

    A run of Train is described by the sequence of its actions (Spec/Traces.v): random decisions,
    trained words, updates of the learning rate. One trainOne call is one step (as in C78-C81);
    [lxv_step] and [w2v_step] (Spec/OneGoroutine.v) are that call. *)
From Coq Require Import Lia Sorting.Permutation.
From Verif.Lib Require Import Go F64.
From Verif.Spec Require Import Words Tokens Readable Runs Training Sequential OneGoroutine Traces.
From Verif.Model Require Import Dictionary Reader Corpus Matrix Subsample Sigmoid Word2vec Lexvec LearningRate Options Train Sched Run.
From Verif.Proofs Require FmtFloat RunModels RunW2v RunOne Traces Follow.
From Verif.Properties Require P23_Runs.
Local Open Scope Z_scope.

(** C98. Every training of LexVec is a complete sequence of actions: each goroutine handles its slice
    from left to right, passes do not overlap, the updates of the rate come in order, never early and
    never more than Goroutines + 1 words late. *)
Theorem C98_lexvec_actions : forall lower rand flog fpow order o doc all next lr l0 x l, (forall m, Permutation (order m) m) ->
  lxv_usable lower o doc all -> lxv_setup lower rand flog fpow order o doc = Ret l0 -> lxv_source lower o l0 = Ret x ->
  lxv_trained lower rand flog fpow order next lr o doc l ->
  let V := Z.of_nat (dict_len (c_dic (lx_corpus l0))) in
  exists es v, complete (parts x) (Z.to_nat (lex_Goroutines o)) (Z.to_nat (lex_Iter o)) es /\
    plays (parts x) (lxv_trial rand (lx_samples l0)) (lxv_step o (lx_items l0) V) (lxv_tick o (c_len (lx_corpus l0))) es (lxv_start next lr l0) v /\
    l = Lxv (lx_corpus l0) (lv_m v) (lx_samples l0) (lx_items l0).
Proof.
  intros lower rand flog fpow order o doc all next lr l0 x l HP HU HS Hx (l1 & x1 & v & H1 & H2 & H3 & ->) V.
  rewrite HS in H1. injection H1 as <-. rewrite Hx in H2. injection H2 as <-.
  destruct (RunModels.lxv_chunks lower rand flog fpow order o doc all HU HP l0 HS x Hx) as (Sx & _).
  destruct (Proofs.Traces.trains_actions (lxv_cfg o) (lxv_effects rand o l0) (parts x) (lxv_step o (lx_items l0) V)
    ltac:(intros d pos v1 r _ Hw; exact Hw) _ x _ _ eq_refl Sx H3) as (es & HC & HO).
  exists es, v. split; [exact HC|]. split; [exact HO|reflexivity].
Qed.
Print Assumptions C98_lexvec_actions.

Theorem C98_word2vec_actions : forall exp lower rand o doc all next lr w0 x w,
  w2v_usable lower o doc all -> w2v_setup lower rand o doc = Ret w0 -> w2v_source lower o w0 = Ret x ->
  w2v_trained exp lower rand next lr o doc w ->
  exists es v, complete (parts x) (Z.to_nat (w2v_Goroutines o)) (Z.to_nat (w2v_Iter o)) es /\
    plays (parts x) (w2v_trial rand (wv_samples w0)) (w2v_step (sigmoid (sig_table exp)) (wv_mod w0) (w2v_Window o) (w2v_Dim o))
      (w2v_tick o (c_len (wv_corpus w0))) es (w2v_start next lr w0) v /\
    w = W2v (wv_corpus w0) (wv_m v) (wv_samples w0) (wv_mod w0) (wv_o v).
Proof.
  intros exp lower rand o doc all next lr w0 x w HU HS Hx (l1 & x1 & v & H1 & H2 & H3 & ->).
  rewrite HS in H1. injection H1 as <-. rewrite Hx in H2. injection H2 as <-.
  destruct (RunW2v.w2v_chunks exp lower rand o doc all HU w0 HS x Hx) as (Sx & _).
  destruct (Proofs.Traces.trains_actions (w2v_cfg o) (w2v_effects (sigmoid (sig_table exp)) rand o w0) (parts x)
    (w2v_step (sigmoid (sig_table exp)) (wv_mod w0) (w2v_Window o) (w2v_Dim o))
    ltac:(intros d pos v1 r _ Hw; exact (RunOne.w2v_work_step _ _ _ _ _ _ _ _ Hw)) _ x _ _ eq_refl Sx H3) as (es & HC & HO).
  exists es, v. split; [exact HC|]. split; [exact HO|reflexivity].
Qed.
Print Assumptions C98_word2vec_actions.

(** C98. The learning rate at any moment of such a sequence is what the updates made so far give. *)
Theorem C98_lexvec_rate : forall rand o l0 slices items V len es v0 v,
  plays slices (lxv_trial rand (lx_samples l0)) (lxv_step o items V) (lxv_tick o len) es v0 v ->
  lr_ticks (lxv_lr_opts o len) (update_counts es) (lv_lr v0) = Ret (lv_lr v).
Proof.
  intros rand o l0 slices items V len es. unfold plays. induction es as [|a es IH]; intros v0 v H.
  - injection H as <-. reflexivity.
  - cbn [ofold] in H. destruct (act slices (lxv_trial rand (lx_samples l0)) (lxv_step o items V) (lxv_tick o len) a v0) as [v1| |] eqn:EA; try discriminate H. cbn [obind] in H.
    specialize (IH v1 v H). destruct a as [k i pos b|k i pos|k n]; cbn [act update_counts lr_ticks] in *.
    + destruct (nth_error slices i) as [d|]; [|discriminate EA]. destruct (nth_error d pos); [|discriminate EA]. unfold lxv_trial in EA.
      destruct (trial (lx_samples l0) n (rand (lv_k v0))) as [b'| |]; try discriminate EA. cbn [obind] in EA. destruct (Bool.eqb b b'); [|discriminate EA].
      injection EA as <-. exact IH.
    + destruct (nth_error slices i) as [d|]; [|discriminate EA]. unfold lxv_step in EA. destruct (lex_train_one _ _ _ _ _ _ _ _ _) as [[nx m]| |]; try discriminate EA.
      cbn [obind] in EA. injection EA as <-. exact IH.
    + unfold lxv_tick in EA. destruct (lr_tick (lxv_lr_opts o len) (Z.of_nat n) (lv_lr v0)) as [r| |]; try discriminate EA. cbn [obind] in EA |- *. injection EA as <-. exact IH.
Qed.
Print Assumptions C98_lexvec_rate.

Theorem C98_word2vec_rate : forall sig rand o w0 slices md window dim len es v0 v,
  plays slices (w2v_trial rand (wv_samples w0)) (w2v_step sig md window dim) (w2v_tick o len) es v0 v ->
  lr_ticks (w2v_lr_opts o len) (update_counts es) (wv_lr v0) = Ret (wv_lr v).
Proof.
  intros sig rand o w0 slices md window dim len es. unfold plays. induction es as [|a es IH]; intros v0 v H.
  - injection H as <-. reflexivity.
  - cbn [ofold] in H. destruct (act slices (w2v_trial rand (wv_samples w0)) (w2v_step sig md window dim) (w2v_tick o len) a v0) as [v1| |] eqn:EA; try discriminate H. cbn [obind] in H.
    specialize (IH v1 v H). destruct a as [k i pos b|k i pos|k n]; cbn [act update_counts lr_ticks] in *.
    + destruct (nth_error slices i) as [d|]; [|discriminate EA]. destruct (nth_error d pos); [|discriminate EA]. unfold w2v_trial in EA.
      destruct (trial (wv_samples w0) n (rand (wv_k v0))) as [b'| |]; try discriminate EA. cbn [obind] in EA. destruct (Bool.eqb b b'); [|discriminate EA].
      injection EA as <-. exact IH.
    + destruct (nth_error slices i) as [d|]; [|discriminate EA]. unfold w2v_step in EA. destruct ((match md with SkipGram => _ | Cbow => _ end) _ _ _ _ _ _) as [s| |]; try discriminate EA.
      cbn [obind] in EA. injection EA as <-. exact IH.
    + unfold w2v_tick in EA. destruct (lr_tick (w2v_lr_opts o len) (Z.of_nat n) (wv_lr v0)) as [r| |]; try discriminate EA. cbn [obind] in EA |- *. injection EA as <-. exact IH.
Qed.
Print Assumptions C98_word2vec_rate.

(** C98. So in a training of one pass, a word trained after [h] others uses the rate computed for [m]
    words, where m <= h <= m + Goroutines + 1. *)
Theorem C98_lexvec_lag : forall rand o l0 slices items V len g es1 i pos es2 v0 v1,
  complete slices g 1 (es1 ++ Traces.Train 0 i pos :: es2) ->
  plays slices (lxv_trial rand (lx_samples l0)) (lxv_step o items V) (lxv_tick o len) es1 v0 v1 ->
  exists m, (m <= handled 0 es1 <= m + g + 1)%nat /\
    lr_ticks (lxv_lr_opts o len) (map Z.of_nat (seq 1 m)) (lv_lr v0) = Ret (lv_lr v1).
Proof.
  intros rand o l0 slices items V len g es1 i pos es2 v0 v1 HC HP. exists (length (rates 0 es1)).
  pose proof (cp_lag _ _ _ _ HC es1 _ 0%nat eq_refl) as LG. split; [lia|].
  rewrite <- (C98_lexvec_rate _ _ _ _ _ _ _ _ _ _ HP). f_equal. symmetry. eapply Proofs.Traces.one_pass_counts; eassumption.
Qed.
Print Assumptions C98_lexvec_lag.

Theorem C98_word2vec_lag : forall sig rand o w0 slices md window dim len g es1 i pos es2 v0 v1,
  complete slices g 1 (es1 ++ Traces.Train 0 i pos :: es2) ->
  plays slices (w2v_trial rand (wv_samples w0)) (w2v_step sig md window dim) (w2v_tick o len) es1 v0 v1 ->
  exists m, (m <= handled 0 es1 <= m + g + 1)%nat /\
    lr_ticks (w2v_lr_opts o len) (map Z.of_nat (seq 1 m)) (wv_lr v0) = Ret (wv_lr v1).
Proof.
  intros sig rand o w0 slices md window dim len g es1 i pos es2 v0 v1 HC HP. exists (length (rates 0 es1)).
  pose proof (cp_lag _ _ _ _ HC es1 _ 0%nat eq_refl) as LG. split; [lia|].
  rewrite <- (C98_word2vec_rate _ _ _ _ _ _ _ _ _ _ _ _ HP). f_equal. symmetry. eapply Proofs.Traces.one_pass_counts; eassumption.
Qed.
Print Assumptions C98_word2vec_lag.

(** C98. The bound on the lag is sharp: for every number of goroutines, in memory, when every slice has
    two words or more, Goroutines + 1 words can be handled while the rate is still the initial one,
    no update having been made. *)
Theorem C98_lag_is_reached : forall lower rand flog fpow order o doc all next lr l0 x, (forall m, Permutation (order m) m) ->
  lxv_usable lower o doc all -> lex_DocInMemory o = true -> 1 <= lex_Iter o ->
  lxv_setup lower rand flog fpow order o doc = Ret l0 -> lxv_source lower o l0 = Ret x ->
  Forall (fun d => 2 <= length d)%nat (parts x) ->
  exists s v, reaches (lxv_cfg o) (lxv_effects rand o l0) (Z.to_nat (lex_Iter o)) (fun _ => x) (lxv_start next lr l0) [s] v /\
    Z.of_nat (length (log s)) = lex_Goroutines o + 1 /\ lv_lr v = lr /\ obs s = OBusy 1.
Proof.
  intros lower rand flog fpow order o doc all next lr l0 x HP HU HM HI HS Hx H2.
  destruct (RunModels.lxv_chunks lower rand flog fpow order o doc all HU HP l0 HS x Hx) as (Sx & _ & _ & Lx & _). specialize (Lx HM).
  pose proof (lu_g _ _ _ _ HU) as HG.
  assert (Mx : x = Mem (parts x)).
  { unfold lxv_source, doc_source in Hx. rewrite HM in Hx. destruct (mem_indexed_doc _); try discriminate Hx. cbn [obind] in Hx.
    destruct (ModelUtil.index_per_thread _ _); try discriminate Hx. cbn [obind] in Hx. injection Hx as <-. reflexivity. }
  assert (Lp : length (parts x) = Z.to_nat (lex_Goroutines o)) by exact Lx.
  destruct (Proofs.Follow.lag_reached (lxv_cfg o) (lxv_effects rand o l0) (parts x) (lxv_step o (lx_items l0) (Z.of_nat (dict_len (c_dic (lx_corpus l0)))))
    eq_refl ltac:(reflexivity) ltac:(cbn [lxv_cfg c_g]; lia) ltac:(cbn [lxv_cfg c_g]; lia) eq_refl (Z.to_nat (lex_Iter o)) (lxv_start next lr l0)) as (s & v & R & L & O & ch & F & NU).
  - lia.
  - rewrite <- Mx. exact (RunModels.lxv_never lower rand flog fpow order o doc all HU HP l0 HS x Hx next lr _).
  - intros Q. rewrite Q in Lp. cbn in Lp. lia.
  - exact H2.
  - exists s, v. rewrite <- Mx in R. split; [exact R|]. split; [rewrite L, Lp; lia|]. split; [|exact O].
    apply (Proofs.Follow.follow_keeps (lxv_effects rand o l0) (parts x) (lxv_step o (lx_items l0) (Z.of_nat (dict_len (c_dic (lx_corpus l0))))) lv_lr) with (4 := F).
    + intros y v1 v2 b ET. cbn [lxv_effects e_trial] in ET. unfold lxv_trial in ET. destruct (trial _ _ _); try discriminate ET. cbn [obind] in ET. injection ET as <- _. reflexivity.
    + intros d pos v1 v2 EF. unfold lxv_step in EF. destruct (lex_train_one _ _ _ _ _ _ _ _ _) as [[nx m]| |]; try discriminate EF. cbn [obind] in EF. injection EF as <-. reflexivity.
    + exact NU.
Qed.
Print Assumptions C98_lag_is_reached.

(** C98. Conversely, in memory, every order in which the goroutines take turns, with the rate updated
    after every word, is a possible training. *)
Theorem C98_lexvec_every_order : forall lower rand flog fpow order o doc all next lr l0 x orders v, (forall m, Permutation (order m) m) ->
  lxv_usable lower o doc all -> lex_DocInMemory o = true ->
  lxv_setup lower rand flog fpow order o doc = Ret l0 -> lxv_source lower o l0 = Ret x ->
  Z.of_nat (length orders) = Z.max 0 (lex_Iter o) -> Forall (fair (parts x)) orders ->
  ofold (turns (parts x) (lxv_trial rand (lx_samples l0)) (lxv_step o (lx_items l0) (Z.of_nat (dict_len (c_dic (lx_corpus l0)))))
    (lxv_tick o (c_len (lx_corpus l0))) (fun _ => 0%nat) 0) orders (lxv_start next lr l0) = Ret v ->
  lxv_trained lower rand flog fpow order next lr o doc (Lxv (lx_corpus l0) (lv_m v) (lx_samples l0) (lx_items l0)).
Proof.
  intros lower rand flog fpow order o doc all next lr l0 x orders v HP HU HM HS Hx HL HF HO.
  destruct (RunModels.lxv_chunks lower rand flog fpow order o doc all HU HP l0 HS x Hx) as (Sx & _ & _ & Lx & _). specialize (Lx HM).
  pose proof (lu_g _ _ _ _ HU) as HG.
  assert (Mx : x = Mem (parts x)).
  { unfold lxv_source, doc_source in Hx. rewrite HM in Hx. destruct (mem_indexed_doc _); try discriminate Hx. cbn [obind] in Hx.
    destruct (ModelUtil.index_per_thread _ _); try discriminate Hx. cbn [obind] in Hx. injection Hx as <-. reflexivity. }
  assert (Lp : length (parts x) = Z.to_nat (lex_Goroutines o)) by exact Lx.
  exists l0, x, v. split; [exact HS|]. split; [exact Hx|]. split; [|reflexivity].
  replace (Z.to_nat (lex_Iter o)) with (length orders) by lia. rewrite Mx.
  apply (Proofs.Follow.turns_trains (lxv_cfg o) (lxv_effects rand o l0) (parts x) (lxv_step o (lx_items l0) (Z.of_nat (dict_len (c_dic (lx_corpus l0))))));
    auto; try reflexivity; cbn [lxv_cfg c_g]; lia.
Qed.
Print Assumptions C98_lexvec_every_order.

Theorem C98_word2vec_every_order : forall exp lower rand o doc all next lr w0 x orders v,
  w2v_usable lower o doc all -> w2v_DocInMemory o = true ->
  w2v_setup lower rand o doc = Ret w0 -> w2v_source lower o w0 = Ret x ->
  Z.of_nat (length orders) = Z.max 0 (w2v_Iter o) -> Forall (fair (parts x)) orders ->
  ofold (turns (parts x) (w2v_trial rand (wv_samples w0)) (w2v_step (sigmoid (sig_table exp)) (wv_mod w0) (w2v_Window o) (w2v_Dim o))
    (w2v_tick o (c_len (wv_corpus w0))) (fun _ => 0%nat) 0) orders (w2v_start next lr w0) = Ret v ->
  w2v_trained exp lower rand next lr o doc (W2v (wv_corpus w0) (wv_m v) (wv_samples w0) (wv_mod w0) (wv_o v)).
Proof.
  intros exp lower rand o doc all next lr w0 x orders v HU HM HS Hx HL HF HO.
  destruct (RunW2v.w2v_chunks exp lower rand o doc all HU w0 HS x Hx) as (Sx & _ & _ & Lx & _). specialize (Lx HM).
  pose proof (wu_g _ _ _ _ HU) as HG. pose proof (wu_dim _ _ _ _ HU) as HD.
  assert (Mx : x = Mem (parts x)).
  { unfold w2v_source, doc_source in Hx. rewrite HM in Hx. destruct (mem_indexed_doc _); try discriminate Hx. cbn [obind] in Hx.
    destruct (ModelUtil.index_per_thread _ _); try discriminate Hx. cbn [obind] in Hx. injection Hx as <-. reflexivity. }
  assert (Lp : length (parts x) = Z.to_nat (w2v_Goroutines o)) by exact Lx.
  exists w0, x, v. split; [exact HS|]. split; [exact Hx|]. split; [|reflexivity].
  replace (Z.to_nat (w2v_Iter o)) with (length orders) by lia. rewrite Mx.
  apply (Proofs.Follow.turns_trains (w2v_cfg o) (w2v_effects (sigmoid (sig_table exp)) rand o w0) (parts x) (w2v_step (sigmoid (sig_table exp)) (wv_mod w0) (w2v_Window o) (w2v_Dim o)));
    auto; try reflexivity; cbn [w2v_cfg c_g]; try lia.
  intros d pos v1. cbn [w2v_effects e_work]. exists (repeat fzero (Z.to_nat (w2v_Dim o))), (repeat fzero (Z.to_nat (w2v_Dim o))).
  rewrite repeat_length. split; [lia|]. split; [lia|reflexivity].
Qed.
Print Assumptions C98_word2vec_every_order.

(** C98. Even one goroutine does not make Train deterministic when the rate is updated during the pass:
    two runs on the text "a b a" with the same random numbers end with different vectors, because the
    second word may be trained before or after the update due after the first. (C80 needs
    UpdateLRBatch to exceed the text.) *)
Definition one_opts : lex_opts := lex_new 1 [L_Dim 1; L_MinCount 0; L_DocInMemory; L_Iter 1; L_Relation "co"; L_UpdateLRBatch 1].
Theorem C98_one_goroutine_differs :
  let id := fun w : gostring => w in let rand := fun _ : nat => fzero in
  let trained := lxv_trained id rand (fun x => x) (fun x _ => x) (fun m => m) 1 (lex_Initlr one_opts) one_opts P23_Runs.aba in
  lxv_usable id one_opts P23_Runs.aba P23_Runs.aba_words /\ lex_Goroutines one_opts = 1 /\
  exists l l', trained l /\ trained l' /\
    existsb (fun p => negb (feq (fst p) (snd p))) (combine (m_array (lx_param l)) (m_array (lx_param l'))) = true.
Proof.
  intros id rand trained. split; [|split; [reflexivity|]].
  { constructor; cbn -[Z.mul Z.pow]; auto using P23_Runs.aba_readable; try lia; try tauto; vm_compute; (reflexivity || discriminate). }
  assert (SR : match lxv_setup id rand (fun x => x) (fun x _ => x) (fun m => m) one_opts P23_Runs.aba with Ret _ => true | _ => false end = true) by (vm_compute; reflexivity).
  destruct (lxv_setup id rand (fun x => x) (fun x _ => x) (fun m => m) one_opts P23_Runs.aba) as [l0|e|] eqn:ES; [|discriminate SR|discriminate SR].
  set (E := lxv_effects rand one_opts l0).
  set (f := lxv_step one_opts (lx_items l0) (Z.of_nat (dict_len (c_dic (lx_corpus l0))))).
  set (chunks := [[0; 1; 0]]%nat).
  assert (SX : lxv_source id one_opts l0 = Ret (Mem chunks)).
  { assert (T : match lxv_setup id rand (fun x => x) (fun x _ => x) (fun m => m) one_opts P23_Runs.aba with Ret l => lxv_source id one_opts l = Ret (Mem chunks) | _ => True end)
      by (vm_compute; reflexivity). rewrite ES in T. exact T. }
  pose (run ch := Proofs.Follow.follow E chunks f ch (map (@WRun nat) chunks, ORecv 0, [], lxv_start 1 (lex_Initlr one_opts) l0)).
  pose (w := Proofs.Follow.Word 0). pose (r := Proofs.Follow.Report 0). pose (u := Proofs.Follow.Update).
  assert (OK : forall ch ws n lg v, run ch = Ret (ws, ORecv n, lg, v) -> ws = map (fun _ => WRun []) chunks -> trained (Lxv (lx_corpus l0) (lv_m v) (lx_samples l0) (lx_items l0))).
  { intros ch ws n lg v HR ->. exists l0, (Mem chunks), v. split; [exact ES|]. split; [exact SX|]. split; [|reflexivity].
    change (Z.to_nat (lex_Iter one_opts)) with 1%nat.
    apply (Proofs.Follow.follow_trains (lxv_cfg one_opts) E chunks f ch _ n lg v); [reflexivity|reflexivity|exact (Nat.le_refl 1)|exact Nat.lt_0_1|exact HR]. }
  assert (T : match run [w; r; u; w; r; u; w; r; u], run [w; r; w; u; r; u; w; r; u] with
              | Ret (ws, ORecv n, lg, v), Ret (ws', ORecv n', lg', v') =>
                  ws = [WRun []] /\ ws' = [WRun []] /\ existsb (fun p => negb (feq (fst p) (snd p))) (combine (m_array (lv_m v)) (m_array (lv_m v'))) = true
              | _, _ => False end).
  { subst run E f. clear OK SX. cbv zeta.
    assert (T : match lxv_setup id rand (fun x => x) (fun x _ => x) (fun m => m) one_opts P23_Runs.aba with
      | Ret l0 => let E := lxv_effects rand one_opts l0 in let f := lxv_step one_opts (lx_items l0) (Z.of_nat (dict_len (c_dic (lx_corpus l0)))) in
          let run ch := Proofs.Follow.follow E chunks f ch (map (@WRun nat) chunks, ORecv 0, [], lxv_start 1 (lex_Initlr one_opts) l0) in
          match run [w; r; u; w; r; u; w; r; u], run [w; r; w; u; r; u; w; r; u] with
              | Ret (ws, ORecv n, lg, v), Ret (ws', ORecv n', lg', v') =>
                  ws = [WRun []] /\ ws' = [WRun []] /\ existsb (fun p => negb (feq (fst p) (snd p))) (combine (m_array (lv_m v)) (m_array (lv_m v'))) = true
              | _, _ => False end
      | _ => True end) by (vm_compute; auto). rewrite ES in T. exact T. }
  destruct (run [w; r; u; w; r; u; w; r; u]) as [[[[ws [n|n|n]] lg] v]|e|] eqn:R1; try contradiction.
  destruct (run [w; r; w; u; r; u; w; r; u]) as [[[[ws' [n'|n'|n']] lg'] v']|e|] eqn:R2; try contradiction.
  destruct T as (-> & -> & T). eexists. eexists. split; [exact (OK _ _ _ _ _ R1 eq_refl)|]. split; [exact (OK _ _ _ _ _ R2 eq_refl)|]. exact T.
Qed.
Print Assumptions C98_one_goroutine_differs.

(** A text and options meeting the hypotheses of C98 for two goroutines (one pass over "a b a b"): each
    slice has two words; the goroutines may take turns 0, 1, 1, 0, and that program runs. *)
Definition abab : reader := {| rd_data := bs "a b a b"; rd_pos := 0; rd_err := false |}.
Definition abab_words : list gostring := [bs "a"; bs "b"; bs "a"; bs "b"].
Lemma abab_readable lb : readable false lb abab abab_words.
Proof.
  split; [auto|]. split; [|split; [reflexivity|repeat constructor; cbn; lia]].
  assert (P : forall b, b = x61 \/ b = x62 -> Proofs.FmtFloat.plain b).
  { intros b Hb s Hs. unfold is_space, space_encodings in Hs. cbn in Hs.
    repeat (destruct Hs as [<-|Hs]; [destruct Hb as [-> | ->]; discriminate|]). destruct Hs. }
  assert (W : forall b, b = x61 \/ b = x62 -> ~ has_space [b]) by (intros b Hb; apply Proofs.FmtFloat.plain_no_space; repeat constructor; auto).
  assert (B : is_space [x20]) by (cbn; tauto).
  change (tokens ([x61] ++ [x20] ++ [x62] ++ [x20] ++ [x61] ++ [x20] ++ [x62] ++ []) [[x61]; [x62]; [x61]; [x62]]).
  do 3 (apply tokens_word; [discriminate|auto|right; exists [x20]; eexists; split; [exact B|reflexivity]|]; apply tokens_space; [exact B|]).
  apply tokens_word; [discriminate|auto|left; reflexivity|apply tokens_end].
Qed.

Definition two_opts : lex_opts := lex_new 2 [L_Dim 1; L_MinCount 0; L_DocInMemory; L_Iter 1; L_Relation "co"; L_UpdateLRBatch 1].
Example C98_case : let id := fun w : gostring => w in let rand := fun _ : nat => fzero in
  lxv_usable id two_opts abab abab_words /\ lex_DocInMemory two_opts = true /\ lex_Goroutines two_opts = 2 /\
  match lxv_setup id rand (fun x => x) (fun x _ => x) (fun m => m) two_opts abab with
  | Ret l0 => match lxv_source id two_opts l0 with
      | Ret x => parts x = [[0; 1]; [0; 1]]%nat /\
          match turns (parts x) (lxv_trial rand (lx_samples l0)) (lxv_step two_opts (lx_items l0) 2) (lxv_tick two_opts 4) (fun _ => 0%nat) 0 [0; 1; 1; 0]%nat
                  (lxv_start 1 (lex_Initlr two_opts) l0) with Ret _ => True | _ => False end
      | _ => False end
  | _ => False end /\
  fair [[0; 1]; [0; 1]]%nat [0; 1; 1; 0]%nat.
Proof.
  intros id rand. split; [|split; [reflexivity|split; [reflexivity|split]]].
  - constructor; cbn -[Z.mul Z.pow]; auto using abab_readable; try lia; try tauto; vm_compute; (reflexivity || discriminate).
  - vm_compute. auto.
  - intros [|[|[|i]]]; reflexivity.
Qed.
