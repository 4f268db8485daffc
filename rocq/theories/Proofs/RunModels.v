(** * Whole runs of the three models: shapes, safety, termination, learning rate *)
From Coq Require Import Lia Permutation Reals.
From Verif.Lib Require Import Go F64 F64Facts ListFacts Tac.
From Verif.Spec Require Import Words Tokens Window Filter Slices Rows Readable Reach Runs Sched.
From Verif.Model Require Import Dictionary Encode Cooc Reader Corpus ModelUtil Matrix Subsample Huffman Sigmoid Word2vec Glove Lexvec
  LearningRate Options Train Sched Run.
From Verif.Proofs Require Import Dictionary Encode Cooc Corpus ModelUtil Items LexItems AdaGrad Train TrainProps Sched SchedRun.
From Verif.Proofs Require Window Lexvec W2vProps Run RunSeq RunSetup LearningRate.
Local Open Scope Z_scope.

Lemma dict_add_fold ws : dict_add dict_new ws = fold_left dict_add [ws] dict_new.
Proof. reflexivity. Qed.

Lemma lr_tick_total p n lr : lo_batch p <> 0 -> lo_verbose p = false \/ lo_logbatch p <> 0 -> exists lr', lr_tick p n lr = Ret lr'.
Proof.
  intros H1 H2. unfold lr_tick. destruct (Z.eqb_spec (lo_batch p) 0); [contradiction|].
  destruct (lo_verbose p); [|eexists; reflexivity]. destruct (Z.eqb_spec (lo_logbatch p) 0); [|eexists; reflexivity]. destruct H2; [discriminate|contradiction].
Qed.

(** Termination of a run whose steps never fail. *)
Section Ends.
Context {A X : Type}.
Variables (c : cfg) (E : effects A X) (iter : nat) (x : source A) (v0 : X).
Hypothesis Hg : (0 < c_g c)%nat.
Hypothesis Hx : Run.src_ok x.
Hypothesis Hskip : c_skip c = false -> forall y v v', e_trial E y v <> Ret (v', false).
Hypothesis Htotal : forall d pos v, exists r, e_work E d pos v r.

Lemma ends_lemma k : (S (mu (init c x)) <= k)%nat -> ends_within c E iter (fun _ => x) v0 (iter * k).
Proof.
  intros Hk. split.
  - intros n l v H Hi. etransitivity; [eapply (RunSeq.reach_bound c E iter x); eauto; lia|]. apply Nat.mul_le_mono_l. exact Hk.
  - intros l v HR Hst. apply (RunSeq.stuck_returned c E iter x Hg Hx Hskip Htotal v0 l v HR Hst).
Qed.

Lemma completes_lemma : never_fails c E iter (fun _ => x) v0 -> exists v, trains c E iter (fun _ => x) v0 v.
Proof.
  intros NF. destruct (RunSeq.some_end c E iter x Hg Hx Hskip Htotal v0) as [H|(l & v & r & HR & HS & Hr)]; [exact H|].
  destruct (NF l v r HR HS) as (p & ->). exfalso. eapply Hr; eauto.
Qed.
End Ends.

Lemma source_bound {A} c (x : source A) :
  (S (mu (init c x)) <= 4 * length (concat (pending x)) + 5 * length (pending x) + 6)%nat.
Proof.
  assert (S4 : forall k (l : list (list A)), (sum (fun d => 4 * length d + k) l = 4 * length (concat l) + k * length l)%nat).
  { intros k. induction l as [|d l IH]; cbn [sum concat length]; [lia|]. rewrite app_length. lia. }
  unfold mu, init. cbn [src wks main obs crashed sum]. destruct x as [l|u e b]; cbn [src_mu pending].
  - rewrite S4. lia.
  - rewrite !S4, !concat_app, !app_length. destruct e; lia.
Qed.

(** ** LexVec *)
Section Lex.
Variables (lower : gostring -> gostring) (rand : nat -> f64) (flog : f64 -> f64) (fpow : f64 -> f64 -> f64)
  (order : list (Z * f64) -> list (Z * f64)) (o : lex_opts) (doc : reader) (all : list gostring).
Hypothesis HU : lxv_usable lower o doc all.
Hypothesis HP : forall m, Permutation (order m) m.
Let lw := used_words lower (lex_ToLower o) all.
Let d := dict_add dict_new lw.
Let V := length (distinct lw).
Let dim := Z.to_nat (lex_Dim o).

Lemma lxv_ready : exists l0 rows, lxv_setup lower rand flog fpow order o doc = Ret l0 /\
  c_dic (lx_corpus l0) = d /\ c_len (lx_corpus l0) = length all /\ lx_param l0 = of_rows dim rows /\ all_len dim rows /\ length rows = (2 * V)%nat /\
  length (lx_samples l0) = V.
Proof.
  destruct (lxv_setup_prefix lower rand flog fpow order o doc all (lu_text _ _ _ _ HU) (lu_dim _ _ _ _ HU)) as
    (c & rows & samples & co & Eco & Ed & El & Ec & L & A & _ & Es & Ls & E).
  { right. apply (lu_window _ _ _ _ HU). }
  change (lowered lower (lex_ToLower o) all) with lw in Ed, Eco, L, Es, Ls, E. fold d in Ed, Eco, L, Es, Ls, E. fold dim in L, A, E.
  assert (W : ma_wf (co_ma co)).
  { rewrite Eco. apply (adds_wf increment); [reflexivity|]. apply fed_in32. exact (lu_words _ _ _ _ HU). }
  destruct (items_run flog fpow [lw] (Z.of_nat (length all)) (lex_RelationType o) (lex_Smooth o) (lex_Verbose o) (lex_LogBatch o)
    (co_ma co) (order (co_ma co)) (lu_rel _ _ _ _ HU) (lu_log _ _ _ _ HU) (HP _) W) as (items & Ei).
  cbn [fold_left] in Ei. fold d in Ei. rewrite Ei in E. cbn [obind] in E.
  eexists. exists rows. split; [exact E|]. cbn [lx_corpus lx_param lx_samples]. unfold V.
  pose proof (dict_len_distinct lw) as DL. fold d in DL. rewrite <- DL. split; [exact Ed|]. split; [exact El|]. split; [reflexivity|]. split; [exact A|]. split; [lia|exact Ls].
Qed.

Variables (l0 : lxv).
Hypothesis HS : lxv_setup lower rand flog fpow order o doc = Ret l0.

Lemma lxv_ready_l0 : exists rows, c_dic (lx_corpus l0) = d /\ c_len (lx_corpus l0) = length all /\ lx_param l0 = of_rows dim rows /\
  all_len dim rows /\ length rows = (2 * V)%nat /\ length (lx_samples l0) = V.
Proof. destruct lxv_ready as (l0' & rows & E & H). rewrite HS in E. injection E as <-. eauto. Qed.

Lemma lxv_source_ok : exists x, lxv_source lower o l0 = Ret x.
Proof.
  pose proof (RunSetup.lxv_setup_corpus _ _ _ _ _ _ _ _ HS) as HC.
  destruct (RunSetup.source_ok _ _ _ _ _ _ _ _ _ all _ (lu_text _ _ _ _ HU) HC (lex_Goroutines o) (lex_BatchSize o)) as (x & E & _); [|exists x; exact E].
  pose proof (lu_batch _ _ _ _ HU). pose proof (lu_g _ _ _ _ HU). destruct (lex_DocInMemory o); auto.
Qed.

Variable x : source nat.
Hypothesis Hx : lxv_source lower o l0 = Ret x.

Lemma lxv_chunks : Run.src_ok x /\ Forall (Forall (fun id => (id < V)%nat)) (pending x) /\ (length (concat (pending x)) <= length all)%nat /\
  (lex_DocInMemory o = true -> length (pending x) = Z.to_nat (lex_Goroutines o)) /\
  concat (pending x) = map (fun w => fst (dict_id d w)) (kept_words (lex_MaxCount o) (lex_MinCount o) lw).
Proof.
  pose proof (RunSetup.lxv_setup_corpus _ _ _ _ _ _ _ _ HS) as HC.
  assert (HB : if lex_DocInMemory o then 1 <= lex_Goroutines o /\ Z.of_nat (length all) + lex_Goroutines o <= 2 ^ 53 else 1 <= lex_BatchSize o).
  { pose proof (lu_batch _ _ _ _ HU). pose proof (lu_g _ _ _ _ HU). destruct (lex_DocInMemory o); auto. }
  destruct (RunSetup.source_lt _ _ _ _ _ _ _ _ _ all _ (lu_text _ _ _ _ HU) HC _ _ HB x Hx) as (S1 & S2 & S3 & S4).
  destruct lxv_ready_l0 as (rows & Ed & _). rewrite Ed in S3. unfold d in S3. rewrite dict_len_distinct in S3. fold V in S3.
  split; [exact S1|]. split; [exact S3|]. split; [|split; [exact S4|]].
  - rewrite S2. eapply RunSetup.kept_doc_len; exact HC.
  - rewrite S2. unfold RunSetup.kept_doc. rewrite Ed. reflexivity.
Qed.

Definition lx_shape (v : lvals) : Prop := exists rows, lv_m v = of_rows dim rows /\ all_len dim rows /\ length rows = (2 * V)%nat.

Let E := lxv_effects rand o l0.

Lemma lx_dim : Z.of_nat dim = lex_Dim o. Proof. apply Z2Nat.id. apply (lu_dim _ _ _ _ HU). Qed.

Lemma lx_trial_ok y v : (y < V)%nat -> exists b, e_trial E y v = Ret (LVals (lv_next v) (lv_m v) (lv_lr v) (S (lv_k v)), b).
Proof.
  intros Hy. cbn [E lxv_effects e_trial]. unfold lxv_trial, trial. destruct lxv_ready_l0 as (_ & _ & _ & _ & _ & _ & Ls).
  destruct (nth_error (lx_samples l0) y) eqn:En; [cbn [obind]; eauto|]. apply nth_error_None in En. lia.
Qed.

Lemma lx_work_ok dd pos v r : lx_shape v -> Forall (fun id => (id < V)%nat) dd -> (pos < length dd)%nat -> e_work E dd pos v r ->
  exists next' rows', r = Ret (LVals next' (of_rows dim rows') (lv_lr v) (lv_k v)) /\ all_len dim rows' /\ length rows' = (2 * V)%nat.
Proof.
  intros (rows & Em & A & L) HD Hpos. cbn [E lxv_effects e_work]. unfold lxv_work.
  destruct lxv_ready_l0 as (_ & Ed & _). rewrite Ed, <- lx_dim. unfold d. rewrite dict_len_distinct. fold V.
  assert (HV : 1 <= Z.of_nat V < 2 ^ 63).
  { assert (0 < V)%nat; [|pose proof (lu_words _ _ _ _ HU) as HW; fold lw in HW; fold V in HW; lia].
    destruct dd as [|a dd]; [cbn in Hpos; lia|]. inversion HD; subst. lia. }
  assert (EN : lex_train_one (Z.of_nat dim) (lv_lr v) (lx_items l0) (Z.of_nat V) (lex_Window o) (lex_NegativeSampleSize o) (map Z.of_nat dd) (Z.of_nat pos) (lv_next v, lv_m v) =
               lex_train_one (Z.of_nat dim) (lv_lr v) (lx_items l0) (Z.of_nat V) (lex_Window o) (Z.of_nat (Z.to_nat (lex_NegativeSampleSize o))) (map Z.of_nat dd) (Z.of_nat pos) (lv_next v, lv_m v)).
  { unfold lex_train_one, lex_body. rewrite Nat2Z.id. reflexivity. }
  rewrite EN, Em. rewrite (Lexvec.train_one_lemma dim (lv_lr v) (lx_items l0) V HV dd pos HD Hpos _ _ (lv_next v) rows (lu_window _ _ _ _ HU) A L).
  cbn [obind]. intros ->.
  match goal with |- context [fold_left ?f ?st rows] => destruct (Lexvec.fold_step_ok (lv_lr v) dim st rows A) as (A' & L') end.
  - rewrite L. eapply Forall_impl; [|apply (Lexvec.lex_steps_lt (lx_items l0) V HV dd pos Hpos)].
    + intros s Hs. cbn beta in Hs. lia.
    + apply Forall_forall. intros u Hu. apply in_map_iff in Hu. destruct Hu as (cc & <- & Hcc). apply (Lexvec.doc_lt V dd HD). apply Window.context_In in Hcc. lia.
    + apply (Lexvec.doc_lt V dd HD). exact Hpos.
  - eexists. eexists. split; [reflexivity|]. split; [exact A'|]. congruence.
Qed.

Lemma lx_start_shape next lr : lx_shape (lxv_start next lr l0).
Proof. destruct lxv_ready_l0 as (rows & _ & _ & Em & A & L & _). exists rows. auto. Qed.

Lemma in_chunk_lt dd : In dd (pending x) -> Forall (fun id => (id < V)%nat) dd.
Proof. intros H. destruct lxv_chunks as (_ & F & _). rewrite Forall_forall in F. auto. Qed.

Lemma in_concat_lt y : In y (concat (pending x)) -> (y < V)%nat.
Proof. intros H. destruct lxv_chunks as (_ & F & _). rewrite <- Forall_concat in F. rewrite Forall_forall in F. auto. Qed.

Definition lx_range (v : lvals) : Prop := LearningRate.lr_range (lxv_lr_opts o (length all)) (lv_lr v).
Definition lx_inv (ranged : Prop) (v : lvals) : Prop := lx_shape v /\ (ranged -> lx_range v).

Lemma lx_tick_ok (ranged : Prop) n v : (ranged -> LearningRate.opts_ok (lxv_lr_opts o (length all))) -> lx_inv ranged v ->
  (1 <= n <= length (concat (pending x)))%nat -> exists v', e_tick E n v = Ret v' /\ lx_inv ranged v'.
Proof.
  intros HO (HSh & HR) Hn. cbn [E lxv_effects e_tick]. unfold lxv_tick. destruct lxv_ready_l0 as (rows0 & _ & El & _). rewrite El.
  destruct (lr_tick_total (lxv_lr_opts o (length all)) (Z.of_nat n) (lv_lr v) (lu_lr _ _ _ _ HU) (lu_log _ _ _ _ HU)) as (lr' & Et).
  rewrite Et. cbn [obind]. eexists. split; [reflexivity|]. split; [exact HSh|]. intros Hr.
  apply (LearningRate.tick_range _ (Z.of_nat n) (lv_lr v)); [exact (HO Hr)| |exact (HR Hr)|exact Et].
  cbn [lxv_lr_opts lo_len]. destruct lxv_chunks as (_ & _ & HL & _). lia.
Qed.

Lemma lxv_run (ranged : Prop) iter v0 : (ranged -> LearningRate.opts_ok (lxv_lr_opts o (length all))) -> lx_inv ranged v0 ->
  forall l v, reaches (lxv_cfg o) E iter (fun _ => x) v0 l v ->
  lx_inv ranged v /\ forall r, vrun_step (lxv_cfg o) E iter (fun _ => x) l v r -> exists p, r = Ret p.
Proof.
  intros HO H0 l v HR. apply (Run.reach_total (lxv_cfg o) E iter x (lx_inv ranged) (proj1 lxv_chunks)) with (v0 := v0); auto.
  - intros y v1 (Hs & Hr) Hy. destruct (lx_trial_ok y v1 (in_concat_lt y Hy)) as (b & Et). eexists. eexists. split; [exact Et|]. split; [exact Hs|exact Hr].
  - intros dd pos v1 r (Hs & Hr) Hd Hp Hw. destruct (lx_work_ok dd pos v1 r Hs (in_chunk_lt dd Hd) Hp Hw) as (next' & rows' & -> & A & L).
    eexists. split; [reflexivity|]. split; [exists rows'; auto|exact Hr].
  - intros n v1 Hv Hn. apply lx_tick_ok; auto.
Qed.

Lemma lx_total dd pos v : exists r, e_work E dd pos v r.
Proof. cbn [E lxv_effects e_work]. unfold lxv_work. eauto. Qed.

Lemma lxv_c_g : (0 < c_g (lxv_cfg o))%nat.
Proof. pose proof (lu_g _ _ _ _ HU). cbn. lia. Qed.

Lemma lxv_ends iter v0 : ends_within (lxv_cfg o) E iter (fun _ => x) v0 (iter * (4 * length (concat (pending x)) + 5 * length (pending x) + 6)).
Proof.
  apply ends_lemma; [apply lxv_c_g|apply lxv_chunks|discriminate|exact lx_total|apply source_bound].
Qed.

Lemma lxv_never next lr iter : never_fails (lxv_cfg o) E iter (fun _ => x) (lxv_start next lr l0).
Proof.
  intros l v r HR HV. refine (proj2 (lxv_run False iter _ _ _ l v HR) r HV); [tauto|]. split; [apply lx_start_shape|tauto].
Qed.

Lemma lxv_completes next lr iter : exists v, trains (lxv_cfg o) E iter (fun _ => x) (lxv_start next lr l0) v.
Proof.
  apply completes_lemma; [apply lxv_c_g|apply lxv_chunks|discriminate|exact lx_total|apply lxv_never].
Qed.
End Lex.
