(** Whole trainings statement by statement. *)
From Coq Require Import Lia Sorting.Permutation.
From Verif.Lib Require Import Go F64 F64Facts ListFacts Tac.
From Verif.Spec Require Import Words Rows Race Runs Readable.
From Verif.Model Require Import ModelUtil Dictionary Corpus Matrix Cells Subsample Sigmoid Word2vec Glove Lexvec Options Train Sched Run Race.
From Verif.Proofs Require Import Cells AdaGrad Race RaceSeq Twins.
From Verif.Proofs Require Sched RunGlove RunModels RunW2v W2vProps TrainProps TrainOne Sigmoid.
Local Open Scope nat_scope.

Lemma training_of (sig : f64 -> outcome f64) bound (inv : smem -> Prop) exc ts m0 : inv m0 ->
  (forall m, inv m -> survives sig bound inv exc (Sys m ts)) -> training_survives sig bound inv exc ts m0.
Proof.
  intros H0 HS k n s HD.
  assert (G : exists m, inv m /\ sys_runs sig n (Sys m ts) s).
  { destruct HD as [n s HR|k n1 s n' s' HD Hd HR]; [eauto|]. exists (y_mem s). split; [|exact HR].
    clear HR Hd n' s'. induction HD as [n s HR|k n1 s n' s' HD IH Hd HR]; [exact (proj1 (proj2 (HS _ H0 _ _ HR)))|].
    exact (proj1 (proj2 (HS _ IH _ _ HR))). }
  destruct G as (m & Hm & HR). exact (HS m Hm n s HR).
Qed.

Lemma cells_concat (Q : f64 -> Prop) col : forall rows, all_len col rows ->
  ((forall r i, r < length rows -> i < col -> Q (at2 rows r i)) <-> Forall Q (concat rows)).
Proof.
  induction rows as [|row rows IH]; intros A; cbn [concat]; [split; [constructor|cbn; lia]|].
  inversion A as [|? ? L A']; subst. rewrite Forall_app, <- (IH A'). split.
  - intros H. split.
    + apply Forall_forall. intros x Hx. destruct (In_nth row x fzero Hx) as (i & Hi & <-). apply (H 0 i); cbn; lia.
    + intros r i Hr Hi. apply (H (S r) i); cbn; lia.
  - intros (H1 & H2) [|r] i Hr Hi; cbn in Hr.
    + rewrite Forall_forall in H1. apply H1. unfold at2. cbn. apply nth_In. lia.
    + apply (H2 r i); lia.
Qed.

(** Memory of the right shape. *)
Lemma mem_ok_iff np cp ng cg Q m : mem_ok np cp ng cg Q m <->
  grid np cp (sm_p m) /\ grid ng cg (sm_g m) /\ every_cell Q (sm_g m) /\ is_uint64 (sm_next m).
Proof.
  unfold mem_ok, every_cell, is_uint64, W64. split.
  - intros (HP & (rows & E & A & L & HQ) & HN). split; [exact HP|]. split; [exists rows; auto|]. split; [|exact HN].
    rewrite E. cbn. apply (proj1 (cells_concat Q cg rows A)). rewrite L. exact HQ.
  - intros (HP & (rows & E & A & L) & HQ & HN). split; [exact HP|]. split; [|exact HN]. exists rows. split; [exact E|]. split; [exact A|]. split; [exact L|].
    rewrite E in HQ. cbn in HQ. pose proof (proj2 (cells_concat Q cg rows A) HQ) as HQ'. rewrite L in HQ'. exact HQ'.
Qed.

Lemma all_safe_map {A R} np cp ng cg Q Lk (Post : R -> Prop) (f : A -> prog R) (cost : A -> nat) : forall l,
  (forall a, In a l -> safe np cp ng cg Q Lk (f a) (cost a) Post) -> all_safe np cp ng cg Q Lk Post (map f l) (map cost l).
Proof.
  unfold all_safe. induction l as [|a l IH]; intros H; cbn [map]; constructor; [apply H; now left|]. apply IH. intros b Hb. apply H. now right.
Qed.

Lemma total_cost {A} (l : list (list A)) c : total (map (fun s => length s * c) l) = length (concat l) * c.
Proof. unfold total in *. induction l as [|s l IH]; cbn [map fold_right concat length]; [reflexivity|]. rewrite app_length, IH. lia. Qed.

Lemma acc_step_only q t : acc_ok q -> acc_ok (fadd q (fmul t t)).
Proof. intros H. exact (proj1 (acc_step q t H)). Qed.

Definition any (x : f64) : Prop := True.
Lemma any_cells m : every_cell any m.
Proof. apply Forall_forall. unfold any. auto. Qed.

Section Glove.
Variables (lower : gostring -> gostring) (rand : nat -> f64) (flog : f64 -> f64) (fpow : f64 -> f64 -> f64) (order : list (Z * f64) -> list (Z * f64)).
Variables (o : glv_opts) (doc : Reader.reader) (all : list gostring) (g0 : glv) (x : source item).
Hypothesis HP : forall m, Permutation (order m) m.
Hypothesis HU : glv_usable lower o doc all.
Hypothesis HS : glv_setup lower rand flog fpow order o doc = Ret g0.
Hypothesis Hx : glv_source o g0 = Ret x.
Let dim := Z.to_nat (glv_Dim o).
Let V := dict_len (gl_dic g0).

Definition glv_inv (Q : f64 -> Prop) (m : smem) : Prop :=
  grid (2 * V) (S dim) (sm_p m) /\ (if is_ada (gl_solver g0) then grid (2 * V) (S dim) (sm_g m) else sm_g m = no_matrix) /\
  every_cell Q (sm_g m) /\ is_uint64 (sm_next m).

Lemma glv_inv_ok Q m : glv_inv Q m <->
  mem_ok (2 * V) (S dim) (if is_ada (gl_solver g0) then 2 * V else 0) (if is_ada (gl_solver g0) then S dim else 0) Q m.
Proof.
  rewrite mem_ok_iff. unfold glv_inv. destruct (is_ada (gl_solver g0)); [tauto|].
  assert (G : sm_g m = no_matrix <-> grid 0 0 (sm_g m)).
  { split.
    - intros ->. exists []. split; [reflexivity|]. split; [constructor|reflexivity].
    - intros ([|r l] & E & _ & L); [exact E|discriminate]. }
  tauto.
Qed.

Lemma glv_V : V = length (distinct (used_words lower (glv_ToLower o) all)).
Proof. unfold V. destruct (RunGlove.glv_ready_g0 lower rand flog fpow order o doc all HU HP g0 HS) as (rows & Ed & _). rewrite Ed. apply TrainProps.dict_len_distinct. Qed.

Lemma glv_survives sig (Q : f64 -> Prop) m : (forall q t, Q q -> Q (fadd q (fmul t t))) -> glv_inv Q m ->
  survives sig (length (gl_items g0) * item_cost (is_ada (gl_solver g0)) dim) (glv_inv Q) never (Sys m (glv_workers o g0 (parts x))).
Proof.
  intros HQ HM.
  assert (Ed : Z.of_nat dim = glv_Dim o) by (unfold dim; pose proof (gu_dim _ _ _ _ HU); lia).
  destruct (RunGlove.glv_chunks lower rand flog fpow order o doc all HU HP g0 HS x Hx) as (_ & Ec & _ & HF). rewrite <- glv_V in HF.
  change (Sched.pending x) with (parts x) in *.
  unfold glv_workers. rewrite <- Ed. fold V.
  assert (HA : all_safe (2 * V) (S dim) (if is_ada (gl_solver g0) then 2 * V else 0) (if is_ada (gl_solver g0) then S dim else 0) Q (fun _ => False) (fun _ : unit => True)
    (map (p_items (is_ada (gl_solver g0)) (glv_Initlr o) (Z.of_nat dim) (Z.of_nat V)) (parts x))
    (map (fun s => length s * item_cost (is_ada (gl_solver g0)) dim) (parts x))).
  { apply all_safe_map. intros s Hs. apply items_safe; auto.
    - destruct (is_ada (gl_solver g0)); [auto|discriminate].
    - rewrite Forall_forall in HF. exact (HF s Hs). }
  apply (survives_safe _ _ _ _ _ _ _ sig _ _ m _ _ _ HA).
  - now apply glv_inv_ok.
  - intros m' Hm'. now apply glv_inv_ok.
  - intros p (y & k & _ & [] & _).
  - rewrite total_cost, Ec. auto.
Qed.

Lemma glv_mem_inv next lr : is_uint64 next -> glv_inv any (glv_mem next lr g0).
Proof.
  intros HN. destruct (RunGlove.glv_ready_g0 lower rand flog fpow order o doc all HU HP g0 HS) as (rows & _ & Em & A & L & Hs & _).
  rewrite <- glv_V in L, Hs. unfold glv_inv, glv_mem. cbn [sm_p sm_g sm_next]. split; [exists rows; auto|]. split; [|split; [apply any_cells|exact HN]].
  destruct (gl_solver g0) as [|g]; cbn [is_ada sol_mat]; [reflexivity|]. cbn [sol_ok] in Hs. destruct Hs as (gs & -> & Ag & Lg). exists gs. auto.
Qed.

(** Accumulators are NaN or at least 1 (vacuous without AdaGrad). *)
Lemma glv_acc next lr : is_uint64 next -> glv_inv acc_ok (glv_mem next lr g0).
Proof.
  intros HN. destruct (glv_mem_inv next lr HN) as (H1 & H2 & _ & H3). split; [exact H1|]. split; [exact H2|]. split; [|exact H3].
  unfold glv_mem. cbn [sm_g]. clear H1 H2 H3.
  revert HS. unfold glv_setup.
  destruct (load_corpus _ _ _ _ _ _ _ _ _) as [c|e|]; cbn [obind]; try discriminate.
  destruct (mat_new _ _ _ _) as [[k param]|e|]; cbn [obind]; try discriminate.
  destruct (String.eqb (glv_SolverType o) sgd_type); cbn [obind].
  { destruct (c_cooc c); [|discriminate]. destruct (make_items _ _ _ _ _ _ _); cbn [obind]; try discriminate.
    intros E. injection E as <-. cbn. constructor. }
  destruct (String.eqb (glv_SolverType o) adagrad_type); cbn [obind]; [|discriminate].
  destruct (mat_ones (dict_len (c_dic c)) dim) as (gs & E & A & L & O). unfold dim in E. rewrite Z2Nat.id in E by exact (gu_dim _ _ _ _ HU). rewrite E. cbn [obind].
  destruct (c_cooc c); [|discriminate]. destruct (make_items _ _ _ _ _ _ _); cbn [obind]; try discriminate.
  intros E'. injection E' as <-. cbn. apply (proj1 (cells_concat acc_ok (S dim) gs A)). intros r i Hr Hi. rewrite O by lia. right. vm_compute. reflexivity.
Qed.
End Glove.

Section Lexvec.
Variables (lower : gostring -> gostring) (rand : nat -> f64) (flog : f64 -> f64) (fpow : f64 -> f64 -> f64) (order : list (Z * f64) -> list (Z * f64)).
Variables (o : lex_opts) (doc : Reader.reader) (all : list gostring) (l0 : lxv) (x : source nat).
Hypothesis HP : forall m, Permutation (order m) m.
Hypothesis HU : lxv_usable lower o doc all.
Hypothesis HS : lxv_setup lower rand flog fpow order o doc = Ret l0.
Hypothesis Hx : lxv_source lower o l0 = Ret x.
Let dim := Z.to_nat (lex_Dim o).
Let V := dict_len (c_dic (lx_corpus l0)).

Definition lxv_inv (m : smem) : Prop := grid (2 * V) dim (sm_p m) /\ sm_g m = no_matrix /\ is_uint64 (sm_next m).

Lemma lxv_inv_ok m : lxv_inv m <-> mem_ok (2 * V) dim 0 0 any m.
Proof.
  rewrite mem_ok_iff. unfold lxv_inv.
  assert (G : sm_g m = no_matrix <-> grid 0 0 (sm_g m)).
  { split.
    - intros ->. exists []. split; [reflexivity|]. split; [constructor|reflexivity].
    - intros ([|r l] & E & _ & L); [exact E|discriminate]. }
  pose proof (any_cells (sm_g m)). tauto.
Qed.

Lemma lxv_V : V = length (distinct (used_words lower (lex_ToLower o) all)).
Proof. unfold V. destruct (RunModels.lxv_ready_l0 lower rand flog fpow order o doc all HU HP l0 HS) as (rows & Ed & _). rewrite Ed. apply TrainProps.dict_len_distinct. Qed.

Lemma lxv_survives sig m : lxv_inv m ->
  survives sig (length (concat (parts x)) * (1 + lex_word_cost dim (lex_Window o) (lex_NegativeSampleSize o))) lxv_inv never (Sys m (lxv_workers o l0 (parts x))).
Proof.
  intros HM.
  assert (Ed : Z.of_nat dim = lex_Dim o) by (unfold dim; pose proof (lu_dim _ _ _ _ HU); lia).
  destruct (RunModels.lxv_chunks lower rand flog fpow order o doc all HU HP l0 HS x Hx) as (_ & HF & _). rewrite <- lxv_V in HF.
  destruct (RunModels.lxv_ready_l0 lower rand flog fpow order o doc all HU HP l0 HS) as (_ & _ & _ & _ & _ & _ & Hs). rewrite <- lxv_V in Hs.
  pose proof (lu_words _ _ _ _ HU) as HV. rewrite <- lxv_V in HV.
  change (Sched.pending x) with (parts x) in *.
  unfold lxv_workers. rewrite <- Ed. fold V.
  assert (HA : all_safe (2 * V) dim 0 0 any (fun _ => False) (fun _ : unit => True)
    (map (p_lex_worker (Z.of_nat dim) (lx_items l0) (Z.of_nat V) (lex_Window o) (lex_NegativeSampleSize o) (lx_samples l0)) (parts x))
    (map (fun s => length s * (1 + lex_word_cost dim (lex_Window o) (lex_NegativeSampleSize o))) (parts x))).
  { apply all_safe_map. intros s Hs'. apply lex_worker_safe; [unfold any; auto|reflexivity|reflexivity|lia|exact (lu_window _ _ _ _ HU)| |lia].
    rewrite Forall_forall in HF. exact (HF s Hs'). }
  apply (survives_safe _ _ _ _ _ _ _ sig _ _ m _ _ _ HA).
  - now apply lxv_inv_ok.
  - intros m' Hm'. now apply lxv_inv_ok.
  - intros p (y & k & _ & [] & _).
  - rewrite total_cost. auto.
Qed.

Lemma lxv_mem_inv next lr : is_uint64 next -> lxv_inv (lxv_mem next lr l0).
Proof.
  intros HN. destruct (RunModels.lxv_ready_l0 lower rand flog fpow order o doc all HU HP l0 HS) as (rows & _ & _ & Em & A & L & _).
  rewrite <- lxv_V in L. split; [exists rows; auto|]. split; [reflexivity|exact HN].
Qed.
End Lexvec.

Section W2v.
Variables (exp : f64 -> f64) (lower : gostring -> gostring) (rand : nat -> f64).
Variables (o : w2v_opts) (doc : Reader.reader) (all : list gostring) (w0 : w2v) (x : source nat).
Hypothesis HU : w2v_usable lower o doc all.
Hypothesis HO : w2v_OptimizerType o = "ns"%string.
Hypothesis HS : w2v_setup lower rand o doc = Ret w0.
Hypothesis Hx : w2v_source lower o w0 = Ret x.
Let dim := Z.to_nat (w2v_Dim o).
Let V := dict_len (c_dic (wv_corpus w0)).

Definition w2v_inv (m : smem) : Prop := grid V dim (sm_p m) /\ grid V dim (sm_g m) /\ is_uint64 (sm_next m).
Definition w2v_word_cost : nat :=
  match wv_mod w0 with Cbow => cb_cost dim (w2v_Window o) (w2v_NegativeSampleSize o) | SkipGram => sg_cost dim (w2v_Window o) (w2v_NegativeSampleSize o) end.

Lemma w2v_inv_ok m : w2v_inv m <-> mem_ok V dim V dim any m.
Proof. rewrite mem_ok_iff. unfold w2v_inv. pose proof (any_cells (sm_g m)). tauto. Qed.

Lemma w2v_V : V = length (distinct (used_words lower (w2v_ToLower o) all)).
Proof. unfold V. destruct (RunW2v.w2v_ready_w0 exp lower rand o doc all HU w0 HS) as (Ed & _). rewrite Ed. apply TrainProps.dict_len_distinct. Qed.

Lemma lookup_excused (p : prog unit) :
  lookup_fails (fun y => fle y (fopp max_exp) = false /\ fge y max_exp = false) (sigmoid (sig_table exp)) p -> bad_lookup p.
Proof.
  intros (y & k & -> & (H1 & H2) & HN). exists y, k. split; [reflexivity|].
  pose proof (W2vProps.marked_follows exp y H1 H2) as HM. pose proof (W2vProps.marked_safe exp y H1 H2) as HM2.
  unfold W2vProps.marked in HM, HM2. change (f_of_ratio false (6 * 2 ^ 50 - 1) (2 ^ 50)) with W2vProps.just_below.
  destruct (isnan y); [auto|]. destruct (feq y W2vProps.just_below); [auto|]. cbn [orb] in HM, HM2.
  exfalso. destruct (sigmoid (sig_table exp) y) as [v|e|] eqn:E; [exact (HN v eq_refl)|discriminate|exact (HM2 eq_refl)].
Qed.

Lemma w2v_ns : exists rows crows, wv_param w0 = of_rows dim rows /\ all_len dim rows /\ length rows = V /\
  wv_opt w0 = NS (of_rows dim crows) (w2v_NegativeSampleSize o) /\ all_len dim crows /\ length crows = V /\ length (wv_samples w0) = V.
Proof.
  destruct (RunW2v.w2v_ready_w0 exp lower rand o doc all HU w0 HS) as (Ed & _ & Ls & rows & Em & A & L & HR).
  pose proof (TrainOne.reach_ok _ [used_words lower (w2v_ToLower o) all] _ _ ltac:(cbn [fold_left]; rewrite TrainProps.dict_len_distinct; exact (wu_words _ _ _ _ HU)) HR) as HOK.
  cbn [fold_left] in HOK. rewrite TrainProps.dict_len_distinct in HOK. rewrite <- w2v_V in L, Ls, HOK.
  assert (EO : exists ctx, wv_opt w0 = NS ctx (w2v_NegativeSampleSize o)).
  { revert HS. unfold w2v_setup. rewrite HO. change (String.eqb "ns" ns_type) with true. cbv iota.
    destruct (load_corpus _ _ _ _ _ _ _ _ _) as [c|e|]; cbn [obind]; try discriminate.
    destruct (mat_new _ _ _ _) as [[k param]|e|]; cbn [obind]; try discriminate.
    destruct (subsample_new _ _) as [sm|e|]; cbn [obind]; try discriminate.
    match goal with |- obind ?q _ = _ -> _ => destruct q as [md|e|]; cbn [obind]; try discriminate end.
    destruct (mat_new _ _ _ _) as [[k' ctx]|e|]; cbn [obind]; try discriminate.
    intros E. injection E as <-. exists ctx. reflexivity. }
  destruct EO as (ctx & EO). rewrite EO in HOK. destruct HOK as (crows & -> & Ac & Lc). exists rows, crows. auto 10.
Qed.

Lemma w2v_survives scratch m : length scratch = dim -> w2v_inv m ->
  survives (sigmoid (sig_table exp)) (length (concat (parts x)) * (2 + w2v_word_cost)) w2v_inv bad_lookup (Sys m (w2v_workers o w0 scratch (parts x))).
Proof.
  intros Lsc HM.
  destruct (RunW2v.w2v_chunks exp lower rand o doc all HU w0 HS x Hx) as (_ & HF & _). rewrite <- w2v_V in HF.
  destruct w2v_ns as (_ & _ & _ & _ & _ & _ & _ & _ & Ls).
  pose proof (wu_words _ _ _ _ HU) as HV. rewrite <- w2v_V in HV.
  change (Sched.pending x) with (parts x) in *.
  unfold w2v_workers. fold V dim. set (cb := match wv_mod w0 with Cbow => true | SkipGram => false end).
  assert (EC : w2v_word_cost = if cb then cb_cost dim (w2v_Window o) (w2v_NegativeSampleSize o) else sg_cost dim (w2v_Window o) (w2v_NegativeSampleSize o))
    by (unfold w2v_word_cost, cb; destruct (wv_mod w0); reflexivity).
  rewrite EC.
  assert (HA : all_safe V dim V dim any (fun y => fle y (fopp max_exp) = false /\ fge y max_exp = false) (fun _ : unit => True)
    (map (p_w2v_worker cb (w2v_NegativeSampleSize o) dim (Z.of_nat V) (w2v_Window o) (wv_samples w0) scratch scratch) (parts x))
    (map (fun s => length s * (2 + (if cb then cb_cost dim (w2v_Window o) (w2v_NegativeSampleSize o) else sg_cost dim (w2v_Window o) (w2v_NegativeSampleSize o)))) (parts x))).
  { apply all_safe_map. intros s Hs'. apply w2v_worker_safe; unfold any; auto.
    - exact (wu_window _ _ _ _ HU).
    - rewrite Forall_forall in HF. exact (HF s Hs').
    - lia. }
  apply (survives_safe _ _ _ _ _ _ _ (sigmoid (sig_table exp)) _ _ m _ _ _ HA).
  - now apply w2v_inv_ok.
  - intros m' Hm'. now apply w2v_inv_ok.
  - exact lookup_excused.
  - rewrite total_cost. auto.
Qed.

Lemma w2v_mem_inv next lr : is_uint64 next -> w2v_inv (w2v_mem next lr w0).
Proof.
  intros HN. destruct w2v_ns as (rows & crows & Em & A & L & Eo & Ac & Lc & _).
  unfold w2v_mem. rewrite Eo. split; [exists rows; auto|]. split; [exists crows; auto|exact HN].
Qed.
End W2v.

(** ** A goroutine alone *)
Section Alone.
Variables (np cp ng cg : nat) (Q Lk : f64 -> Prop) (sig : f64 -> outcome f64) (rand : nat -> f64).
Hypothesis HL : forall y, Lk y -> exists v, sig y = Ret v.

Lemma prun_safe {R} (Post : R -> Prop) : forall p n k m, safe np cp ng cg Q Lk p n Post -> mem_ok np cp ng cg Q m ->
  exists k' m' r, prun sig rand p k m = Ret (k', m', r) /\ mem_ok np cp ng cg Q m' /\ Post r.
Proof.
  intros p n k m HS HM.
  assert (ST : forall p n m x, safe np cp ng cg Q Lk p n Post -> mem_ok np cp ng cg Q m -> pdone p = false ->
    exists m' p' n', pexec sig x m p = Ret (m', p') /\ mem_ok np cp ng cg Q m' /\ n = S n' /\ safe np cp ng cg Q Lk p' n' Post).
  { clear - HL. intros p n m x HS HM HD. destruct (pexec_safe np cp ng cg Q Lk Post sig p n m x HM HS HD) as [H|(y & k & -> & Hy & HN)]; [exact H|].
    destruct (HL y Hy) as (v & E). destruct (HN v E). }
  revert p n k m HS HM.
  induction p as [r| |g row p IH|g row i p IH|g row i y p IH|p IH|z p IH|p IH|p IH|y p IH]; intros n k m HS HM.
  1: { exists k, m, r. auto. }
  1: { destruct HS. }
  all: pose proof (ST _ n m (rand k) HS HM eq_refl) as (m' & p' & n' & E & HM' & -> & HS'); cbn [pexec] in E; cbn [prun].
  - destruct (mat_slice _ _) as [s|e|]; cbn [obind] in *; try discriminate. injection E as <- <-. eauto.
  - destruct (cell _ _ _) as [s|e|]; cbn [obind] in *; try discriminate. injection E as <- <-. eauto.
  - destruct (set_cell _ _ _ _) as [s|e|]; cbn [obind] in *; try discriminate. injection E as <- <-. eauto.
  - injection E as <- <-. eauto.
  - injection E as <- <-. eauto.
  - injection E as <- <-. eauto.
  - injection E as <- <-. eauto.
  - destruct (sig y) as [s|e|]; cbn [obind] in *; try discriminate. injection E as <- <-. eauto.
Qed.
End Alone.

Lemma draws_safe np cp ng cg Q Lk : forall bounds, Forall (fun v => (1 <= v < 2 ^ 63)%Z) bounds ->
  safe np cp ng cg Q Lk (draws bounds) (length bounds * 3) (Forall (fun vr => (0 <= snd vr < fst vr)%Z)).
Proof.
  induction bounds as [|v bounds IH]; intros HF; [constructor|]. inversion HF; subst.
  cbn [draws length]. change (S (length bounds) * 3) with (3 + length bounds * 3). eapply safe_bind; [apply next_safe; auto|].
  intros r Hr. replace (length bounds * 3) with (length bounds * 3 + 0) by lia. eapply safe_bind; [apply IH; auto|]. intros l Hl. constructor; auto.
Qed.

(** A given schedule, as a function. *)
Section Schedule.
Context {R : Type}.
Variable sig : f64 -> outcome f64.
Fixpoint follow (sched : list nat) (s : system R) : outcome (system R) :=
  match sched with
  | [] => Ret s
  | i :: sched' =>
      match nth_error (y_threads s) i with
      | Some p => if pdone p then follow sched' s
                  else obind (pexec sig fzero (y_mem s) p) (fun '(m', p') => follow sched' (Sys m' (upd (y_threads s) i p')))
      | None => Panic
      end
  end.
Lemma follow_runs : forall sched s s', follow sched s = Ret s' -> exists n, sys_runs sig n s s'.
Proof.
  induction sched as [|i sched IH]; intros s s' H; cbn [follow] in H.
  - injection H as <-. exists 0. constructor.
  - destruct (nth_error (y_threads s) i) as [p|] eqn:E; [|discriminate]. destruct (pdone p) eqn:D; [auto|].
    destruct (pexec sig fzero (y_mem s) p) as [[m' p']|e|] eqn:X; cbn [obind] in H; try discriminate.
    destruct (IH _ _ H) as (n & HR). destruct s as [m ts]. cbn [y_mem y_threads] in *.
    pose proof (y_thread sig m ts i p fzero E D) as ST. rewrite X in ST. cbn [obind] in ST.
    exists (1 + n). eapply runs_trans; [eapply y_step; [constructor|exact ST]|exact HR].
Qed.
End Schedule.

Section LexAlone.
Variables (lower : gostring -> gostring) (rand0 : nat -> f64) (flog : f64 -> f64) (fpow : f64 -> f64 -> f64) (order : list (Z * f64) -> list (Z * f64)).
Variables (o : lex_opts) (doc : Reader.reader) (all : list gostring) (l0 : lxv) (x : source nat).
Hypothesis HP : forall m, Permutation (order m) m.
Hypothesis HU : lxv_usable lower o doc all.
Hypothesis HS : lxv_setup lower rand0 flog fpow order o doc = Ret l0.
Hypothesis Hx : lxv_source lower o l0 = Ret x.

Lemma lxv_alone_total sig rand next lr slice : is_uint64 next -> In slice (parts x) -> forall k,
  exists k' m', prun sig rand (p_lex_worker (lex_Dim o) (lx_items l0) (Z.of_nat (dict_len (c_dic (lx_corpus l0)))) (lex_Window o) (lex_NegativeSampleSize o) (lx_samples l0) slice)
    k (lxv_mem next lr l0) = Ret (k', m', tt).
Proof.
  intros HN Hin k.
  pose proof (lxv_V lower rand0 flog fpow order o doc all l0 HP HU HS) as EV.
  destruct (RunModels.lxv_chunks lower rand0 flog fpow order o doc all HU HP l0 HS x Hx) as (_ & HF & _).
  destruct (RunModels.lxv_ready_l0 lower rand0 flog fpow order o doc all HU HP l0 HS) as (_ & _ & _ & _ & _ & _ & Hs).
  pose proof (lu_words _ _ _ _ HU) as HV. rewrite <- EV in HF, Hs, HV.
  rewrite Forall_forall in HF. specialize (HF slice Hin).
  set (V := dict_len (c_dic (lx_corpus l0))) in *.
  replace (lex_Dim o) with (Z.of_nat (Z.to_nat (lex_Dim o))) by (pose proof (lu_dim _ _ _ _ HU); lia).
  destruct (prun_safe (2 * V) (Z.to_nat (lex_Dim o)) 0 0 any (fun _ => False) sig rand ltac:(intros ? []) (fun _ : unit => True) _ _ k (lxv_mem next lr l0)
    (lex_worker_safe (2 * V) (Z.to_nat (lex_Dim o)) 0 0 any (fun _ => False) ltac:(unfold any; auto) (Z.to_nat (lex_Dim o)) V (lx_items l0) (lex_Window o) (lex_NegativeSampleSize o)
       eq_refl eq_refl ltac:(lia) (lu_window _ _ _ _ HU) (lx_samples l0) slice HF ltac:(lia))) as (k' & m' & [] & E & _).
  - apply lxv_inv_ok. exact (lxv_mem_inv lower rand0 flog fpow order o doc all l0 HP HU HS next lr HN).
  - exists k', m'. exact E.
Qed.
End LexAlone.
