(** * Whole runs of word2vec *)
From Coq Require Import Lia Permutation Reals.
From Verif.Lib Require Import Go F64 F64Facts ListFacts Tac.
From Verif.Spec Require Import Words Tokens Window Filter Slices Rows Readable Reach Runs Sched.
From Verif.Model Require Import Dictionary Reader Corpus ModelUtil Matrix Subsample Huffman Sigmoid Word2vec LearningRate Options Train Sched Run.
From Verif.Proofs Require Import Dictionary Corpus ModelUtil TrainOne Train TrainProps Sched SchedRun.
From Verif.Proofs Require LearningRate W2vProps Run RunSeq RunSetup RunModels.
Local Open Scope Z_scope.

Section W2v.
Variables (exp : f64 -> f64) (lower : gostring -> gostring) (rand : nat -> f64) (o : w2v_opts) (doc : reader) (all : list gostring).
Hypothesis HU : w2v_usable lower o doc all.
Let lw := used_words lower (w2v_ToLower o) all.
Let d := dict_add dict_new lw.
Let V := length (distinct lw).
Let dim := Z.to_nat (w2v_Dim o).
Let sig := sigmoid (sig_table exp).

Lemma w2_dim : Z.of_nat dim = w2v_Dim o. Proof. apply Z2Nat.id. apply (wu_dim _ _ _ _ HU). Qed.
Lemma w2_V : dict_len d = V. Proof. apply dict_len_distinct. Qed.

Definition w2_shape (v : wvals) : Prop :=
  exists rows, wv_m v = of_rows dim rows /\ all_len dim rows /\ length rows = V /\ opt_reach sig d dim (wv_o v).

Lemma w2v_ready : exists w0, w2v_setup lower rand o doc = Ret w0.
Proof.
  pose proof (wu_g _ _ _ _ HU).
  destruct (w2v_starts lower rand o doc all (wu_text _ _ _ _ HU) (wu_dim _ _ _ _ HU) ltac:(lia) (wu_model _ _ _ _ HU) (wu_opt _ _ _ _ HU))
    as (c & rows & samples & opt & E & _).
  specialize (E (@Ret w2v)). unfold w2v_train in E. destruct (w2v_setup lower rand o doc) as [w0| |]; cbn [obind] in E; try discriminate. eauto.
Qed.

Variable w0 : w2v.
Hypothesis HS : w2v_setup lower rand o doc = Ret w0.

Lemma w2v_ready_w0 : c_dic (wv_corpus w0) = d /\ c_len (wv_corpus w0) = length all /\ length (wv_samples w0) = V /\
  exists rows, wv_param w0 = of_rows dim rows /\ all_len dim rows /\ length rows = V /\ opt_reach sig d dim (wv_opt w0).
Proof.
  pose proof (wu_g _ _ _ _ HU).
  destruct (w2v_starts lower rand o doc all (wu_text _ _ _ _ HU) (wu_dim _ _ _ _ HU) ltac:(lia) (wu_model _ _ _ _ HU) (wu_opt _ _ _ _ HU))
    as (c & rows & samples & opt & E & Ed & El & L & A & Ls & Ho).
  specialize (E (@Ret w2v)). unfold w2v_train in E. rewrite HS in E. cbn [obind] in E. injection E as ->.
  cbn [wv_corpus wv_samples wv_param wv_opt]. split; [exact Ed|]. split; [exact El|]. split; [exact Ls|]. exists rows.
  split; [reflexivity|]. split; [exact A|]. split; [exact L|]. fold lw in Ho. fold d V dim in Ho.
  destruct opt as [ctx n|h leaves depth].
  - destruct Ho as (_ & _ & crows & -> & Lc & Ac). apply or_ns; [exact Ac|]. rewrite w2_V. exact Lc.
  - destruct Ho as (_ & -> & _ & Hh). rewrite <- w2_dim in Hh. apply or_hs; [exact Hh|]. apply (wu_depth _ _ _ _ HU).
Qed.

Lemma w2v_source_ok : exists x, w2v_source lower o w0 = Ret x.
Proof.
  pose proof (RunSetup.w2v_setup_corpus _ _ _ _ _ HS) as HC.
  destruct (RunSetup.source_ok _ _ _ _ _ _ _ _ _ all _ (wu_text _ _ _ _ HU) HC (w2v_Goroutines o) (w2v_BatchSize o)) as (x & E & _); [|exists x; exact E].
  pose proof (wu_batch _ _ _ _ HU). pose proof (wu_g _ _ _ _ HU). destruct (w2v_DocInMemory o); auto.
Qed.

Variable x : source nat.
Hypothesis Hx : w2v_source lower o w0 = Ret x.

Lemma w2v_chunks : Run.src_ok x /\ Forall (Forall (fun id => (id < V)%nat)) (pending x) /\ (length (concat (pending x)) <= length all)%nat /\
  (w2v_DocInMemory o = true -> length (pending x) = Z.to_nat (w2v_Goroutines o)) /\
  concat (pending x) = map (fun w => fst (dict_id d w)) (kept_words (w2v_MaxCount o) (w2v_MinCount o) lw).
Proof.
  pose proof (RunSetup.w2v_setup_corpus _ _ _ _ _ HS) as HC.
  assert (HB : if w2v_DocInMemory o then 1 <= w2v_Goroutines o /\ Z.of_nat (length all) + w2v_Goroutines o <= 2 ^ 53 else 1 <= w2v_BatchSize o).
  { pose proof (wu_batch _ _ _ _ HU). pose proof (wu_g _ _ _ _ HU). destruct (w2v_DocInMemory o); auto. }
  destruct (RunSetup.source_lt _ _ _ _ _ _ _ _ _ all _ (wu_text _ _ _ _ HU) HC _ _ HB x Hx) as (S1 & S2 & S3 & S4).
  destruct w2v_ready_w0 as (Ed & _). rewrite Ed, w2_V in S3.
  split; [exact S1|]. split; [exact S3|]. split; [|split; [exact S4|]].
  - rewrite S2. eapply RunSetup.kept_doc_len; exact HC.
  - rewrite S2. unfold RunSetup.kept_doc. rewrite Ed. reflexivity.
Qed.

Lemma w2_in_chunk dd : In dd (pending x) -> Forall (fun id => (id < V)%nat) dd.
Proof. intros H. destruct w2v_chunks as (_ & F & _). rewrite Forall_forall in F. auto. Qed.
Lemma w2_in_concat y : In y (concat (pending x)) -> (y < V)%nat.
Proof. intros H. destruct w2v_chunks as (_ & F & _). rewrite <- Forall_concat in F. rewrite Forall_forall in F. auto. Qed.

Let E := w2v_effects sig rand o w0.
Let M := w2v_effects (W2vProps.marked exp) rand o w0.

Lemma w2_trial_ok y v : (y < V)%nat -> exists b, e_trial E y v = Ret (WVals (wv_next v) (wv_m v) (wv_o v) (wv_lr v) (S (wv_k v)), b).
Proof.
  intros Hy. cbn [E w2v_effects e_trial]. unfold w2v_trial, trial. destruct w2v_ready_w0 as (_ & _ & Ls & _).
  destruct (nth_error (wv_samples w0) y) eqn:En; [cbn [obind]; eauto|]. apply nth_error_None in En. lia.
Qed.

Lemma w2_work_ok dd pos v r : w2_shape v -> Forall (fun id => (id < V)%nat) dd -> (pos < length dd)%nat -> e_work E dd pos v r ->
  (exists v', r = Ret v' /\ w2_shape v' /\ wv_lr v' = wv_lr v /\ wv_k v' = wv_k v) \/ (r = Panic /\ exists e, e_work M dd pos v (Err e)).
Proof.
  intros (rows & Em & A & L & HO) HD Hpos (agg & tmp & Ha & Ht & Hr). rewrite <- w2_dim in Ha, Ht.
  set (train := match wv_mod w0 with SkipGram => sg_train_one | Cbow => cb_train_one end).
  pose proof (W2vProps.train_one_lemma exp [lw] dim (w2v_Window o) (map Z.of_nat dd) (Z.of_nat pos) (wv_lr v) (wv_next v) rows (wv_o v) agg tmp train) as T.
  cbv zeta in T. cbn [fold_left] in T. fold d sig in T. rewrite w2_V in T. rewrite <- Em in T.
  specialize (T (wu_words _ _ _ _ HU) (wu_window _ _ _ _ HU)).
  assert (HD' : Forall (fun id => 0 <= id < Z.of_nat V) (map Z.of_nat dd)).
  { rewrite Forall_forall in *. intros z Hz. apply in_map_iff in Hz. destruct Hz as (n & <- & Hn). specialize (HD n Hn). cbn beta in HD. lia. }
  specialize (T HD'). rewrite map_length in T. specialize (T ltac:(lia) HO A L ltac:(lia) ltac:(lia)).
  assert (Htr : train = sg_train_one \/ train = cb_train_one) by (unfold train; destruct (wv_mod w0); auto). specialize (T Htr).
  assert (Hr' : r = obind (train sig (w2v_Window o) (map Z.of_nat dd) (Z.of_nat pos) (wv_lr v) (WState (wv_next v) (wv_m v) (wv_o v) agg tmp))
    (fun s => Ret (WVals (s_next s) (s_param s) (s_opt s) (wv_lr v) (wv_k v)))).
  { rewrite Hr. unfold train. destruct (wv_mod w0); reflexivity. }
  clear Hr. destruct (train (W2vProps.marked exp) _ _ _ _ _) as [st'|e|] eqn:Et.
  - left. destruct T as (Tr & rows' & Ep & A' & L' & HO' & _). rewrite Tr in Hr'. cbn [obind] in Hr'. eexists. split; [exact Hr'|].
    split; [|split; reflexivity]. exists rows'. cbn [wv_m wv_o]. auto.
  - right. rewrite T in Hr'. cbn [obind] in Hr'. split; [exact Hr'|]. exists e. exists agg, tmp. rewrite <- w2_dim. split; [exact Ha|]. split; [exact Ht|].
    transitivity (obind (train (W2vProps.marked exp) (w2v_Window o) (map Z.of_nat dd) (Z.of_nat pos) (wv_lr v) (WState (wv_next v) (wv_m v) (wv_o v) agg tmp))
      (fun s => Ret (WVals (s_next s) (s_param s) (s_opt s) (wv_lr v) (wv_k v)))); [rewrite Et; reflexivity|unfold train; destruct (wv_mod w0); reflexivity].
  - destruct T.
Qed.

Definition w2_range (v : wvals) : Prop := LearningRate.lr_range (w2v_lr_opts o (length all)) (wv_lr v).
Definition w2_inv (ranged : Prop) (v : wvals) : Prop := w2_shape v /\ (ranged -> w2_range v).

Lemma w2_report : w2v_Verbose o = false \/ w2v_LogBatch o <> 0.
Proof. exact (proj1 (wu_text _ _ _ _ HU)). Qed.

Lemma w2_tick_ok (ranged : Prop) n v : (ranged -> LearningRate.opts_ok (w2v_lr_opts o (length all))) -> w2_inv ranged v ->
  (1 <= n <= length (concat (pending x)))%nat -> exists v', e_tick E n v = Ret v' /\ w2_inv ranged v'.
Proof.
  intros HO (HSh & HR) Hn. cbn [E w2v_effects e_tick]. unfold w2v_tick. destruct w2v_ready_w0 as (_ & El & _). rewrite El.
  destruct (RunModels.lr_tick_total (w2v_lr_opts o (length all)) (Z.of_nat n) (wv_lr v) (wu_lr _ _ _ _ HU) w2_report) as (lr' & Et).
  rewrite Et. cbn [obind]. eexists. split; [reflexivity|]. split; [exact HSh|]. intros Hr.
  apply (LearningRate.tick_range _ (Z.of_nat n) (wv_lr v)); [exact (HO Hr)| |exact (HR Hr)|exact Et].
  cbn [w2v_lr_opts lo_len]. destruct w2v_chunks as (_ & _ & HL & _). lia.
Qed.

Lemma w2v_run (ranged : Prop) iter v0 : (ranged -> LearningRate.opts_ok (w2v_lr_opts o (length all))) -> w2_inv ranged v0 ->
  forall l v, reaches (w2v_cfg o) E iter (fun _ => x) v0 l v ->
  w2_inv ranged v /\ forall r, vrun_step (w2v_cfg o) E iter (fun _ => x) l v r ->
    (exists p, r = Ret p) \/ (r = Panic /\ exists e, vrun_step (w2v_cfg o) M iter (fun _ => x) l v (Err e)).
Proof.
  intros HO H0 l v HR. apply (Run.reach_marked (w2v_cfg o) E M iter x (w2_inv ranged) (proj1 w2v_chunks)) with (v0 := v0); auto.
  - intros y v1 (Hs & Hr) Hy. destruct (w2_trial_ok y v1 (w2_in_concat y Hy)) as (b & Et). eexists. eexists. split; [exact Et|]. split; [exact Hs|exact Hr].
  - intros dd pos v1 r (Hs & Hr) Hd Hp Hw. destruct (w2_work_ok dd pos v1 r Hs (w2_in_chunk dd Hd) Hp Hw) as [(v' & -> & Hs' & El & _)|H]; [|right; exact H].
    left. exists v'. split; [reflexivity|]. split; [exact Hs'|]. unfold w2_range. rewrite El. exact Hr.
  - intros n v1 Hv Hn. apply w2_tick_ok; auto.
Qed.

Lemma w2_start_shape next lr : w2_shape (w2v_start next lr w0).
Proof. destruct w2v_ready_w0 as (_ & _ & _ & rows & Em & A & L & HO). exists rows. auto. Qed.

Lemma w2_total s dd pos v : exists r, e_work (w2v_effects s rand o w0) dd pos v r.
Proof.
  cbn [w2v_effects e_work]. unfold w2v_work. eexists. exists (repeat fzero dim), (repeat fzero dim). rewrite repeat_length, w2_dim. auto.
Qed.
Lemma w2v_c_g : (0 < c_g (w2v_cfg o))%nat.
Proof. pose proof (wu_g _ _ _ _ HU). cbn. lia. Qed.

Lemma w2v_ends iter v0 : ends_within (w2v_cfg o) E iter (fun _ => x) v0 (iter * (4 * length (concat (pending x)) + 5 * length (pending x) + 6)).
Proof. apply RunModels.ends_lemma; [apply w2v_c_g|apply w2v_chunks|discriminate|apply w2_total|apply RunModels.source_bound]. Qed.

Lemma w2v_only next lr iter l v r : reaches (w2v_cfg o) E iter (fun _ => x) (w2v_start next lr w0) l v -> vrun_step (w2v_cfg o) E iter (fun _ => x) l v r ->
  (exists p, r = Ret p) \/ (r = Panic /\ exists e, vrun_step (w2v_cfg o) M iter (fun _ => x) l v (Err e)).
Proof. intros HR HV. refine (proj2 (w2v_run False iter _ _ _ l v HR) r HV); [tauto|]. split; [apply w2_start_shape|tauto]. Qed.

Lemma w2v_completes next lr iter : (exists v, trains (w2v_cfg o) E iter (fun _ => x) (w2v_start next lr w0) v) \/
  (exists l v, reaches (w2v_cfg o) E iter (fun _ => x) (w2v_start next lr w0) l v /\ can_panic (w2v_cfg o) E iter (fun _ => x) l v).
Proof.
  destruct (RunSeq.some_end (w2v_cfg o) E iter x w2v_c_g (proj1 w2v_chunks) ltac:(discriminate) (w2_total sig) (w2v_start next lr w0)) as [H|(l & v & r & HR & HV & Hr)]; [left; exact H|].
  right. exists l, v. split; [exact HR|]. destruct (w2v_only next lr iter l v r HR HV) as [(p & ->)|(-> & _)]; [exfalso; eapply Hr; eauto|exact HV].
Qed.
End W2v.
