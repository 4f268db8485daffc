(** * C82-C85: the goroutines statement by statement

    Each read and each write of a shared variable is a step, and the goroutines interleave in any way
    (Model/Race.v). [sys_runs sig n s s']: an execution with [n] steps; [sig] is the lookup in the sigmoid
    table. Specifications: Spec/Race.v. *)
From Coq Require Import Lia Sorting.Permutation.
From Verif.Lib Require Import Go F64 F64Facts.
From Verif.Spec Require Import Words Rows Readable Runs Training Sequential OneGoroutine Race.
From Verif.Model Require Import ModelUtil Dictionary Reader Corpus Matrix Cells Subsample Sigmoid Word2vec Glove Lexvec Options Train Sched Run Race.
From Verif.Proofs Require Race RaceSeq RaceRuns Twins AdaGrad RunModels.
From Verif.Properties Require P23_Runs.
Local Open Scope Z_scope.

(** C82. GloVe. *)
Theorem C82_glove : forall lower rand flog fpow order o doc all g0 x next lr sig, (forall m, Permutation (order m) m) ->
  glv_usable lower o doc all -> glv_setup lower rand flog fpow order o doc = Ret g0 -> glv_source o g0 = Ret x -> is_uint64 next ->
  let V := dict_len (gl_dic g0) in let dim := Z.to_nat (glv_Dim o) in
  training_survives sig
    (length (gl_items g0) * (if is_ada (gl_solver g0) then 2 * (14 * dim + 16) else 2 * (8 * dim + 8)))
    (fun m => grid (2 * V) (S dim) (sm_p m) /\ (is_ada (gl_solver g0) = true -> grid (2 * V) (S dim) (sm_g m)))
    never (glv_workers o g0 (parts x)) (glv_mem next lr g0).
Proof.
  intros lower rand flog fpow order o doc all g0 x next lr sig HP HU HS Hx HN V dim k n s HD.
  destruct (RaceRuns.training_of sig _ _ _ _ _ (RaceRuns.glv_mem_inv lower rand flog fpow order o doc all g0 HP HU HS next lr HN)
    (fun m => RaceRuns.glv_survives lower rand flog fpow order o doc all g0 x HP HU HS Hx sig RaceRuns.any m ltac:(unfold RaceRuns.any; auto)) k n s HD) as (H1 & (A & B & _) & H3).
  split; [exact H1|]. split; [|exact H3]. split; [exact A|]. intros E. rewrite E in B. exact B.
Qed.
Print Assumptions C82_glove.

(** C82. LexVec. *)
Theorem C82_lexvec : forall lower rand flog fpow order o doc all l0 x next lr sig, (forall m, Permutation (order m) m) ->
  lxv_usable lower o doc all -> lxv_setup lower rand flog fpow order o doc = Ret l0 -> lxv_source lower o l0 = Ret x -> is_uint64 next ->
  let V := dict_len (c_dic (lx_corpus l0)) in let dim := Z.to_nat (lex_Dim o) in
  let window := Z.to_nat (lex_Window o) in let neg := Z.to_nat (lex_NegativeSampleSize o) in
  training_survives sig
    (length (concat (parts x)) * (1 + (3 + (2 * window + 1) * (8 * dim + 1 + neg * (8 * dim + 4)))))
    (fun m => grid (2 * V) dim (sm_p m) /\ is_uint64 (sm_next m))
    never (lxv_workers o l0 (parts x)) (lxv_mem next lr l0).
Proof.
  intros lower rand flog fpow order o doc all l0 x next lr sig HP HU HS Hx HN V dim window neg k n s HD.
  destruct (RaceRuns.training_of sig _ _ _ _ _ (RaceRuns.lxv_mem_inv lower rand flog fpow order o doc all l0 HP HU HS next lr HN)
    (fun m => RaceRuns.lxv_survives lower rand flog fpow order o doc all l0 x HP HU HS Hx sig m) k n s HD) as (H1 & (A & _ & B) & H3).
  split; [exact H1|]. split; [|exact H3]. auto.
Qed.
Print Assumptions C82_lexvec.

(** C82. word2vec with negative sampling; a goroutine may fail at a lookup that C29 describes, and
    nowhere else. *)
Theorem C82_word2vec : forall exp lower rand o doc all w0 x next lr scratch,
  w2v_usable lower o doc all -> w2v_OptimizerType o = "ns"%string ->
  w2v_setup lower rand o doc = Ret w0 -> w2v_source lower o w0 = Ret x -> is_uint64 next -> length scratch = Z.to_nat (w2v_Dim o) ->
  let V := dict_len (c_dic (wv_corpus w0)) in let dim := Z.to_nat (w2v_Dim o) in
  let window := Z.to_nat (w2v_Window o) in let neg := Z.to_nat (w2v_NegativeSampleSize o) in
  let optim := (6 * dim + 2 + neg * (6 * dim + 5))%nat in
  let per_word := match wv_mod w0 with
                  | SkipGram => (3 + (2 * window + 1) * (1 + (optim + 2 * dim)))%nat
                  | Cbow => (3 + (2 * window + 1) * (1 + dim) + (optim + (3 + (2 * window + 1) * (1 + 2 * dim))))%nat end in
  training_survives (sigmoid (sig_table exp))
    (length (concat (parts x)) * (2 + per_word))
    (fun m => grid V dim (sm_p m) /\ grid V dim (sm_g m) /\ is_uint64 (sm_next m))
    bad_lookup (w2v_workers o w0 scratch (parts x)) (w2v_mem next lr w0).
Proof.
  intros exp lower rand o doc all w0 x next lr scratch HU HO HS Hx HN HL V dim window neg optim per_word.
  exact (RaceRuns.training_of _ _ _ _ _ _ (RaceRuns.w2v_mem_inv exp lower rand o doc all w0 x HU HO HS Hx next lr HN)
    (fun m => RaceRuns.w2v_survives exp lower rand o doc all w0 x HU HO HS Hx scratch m HL)).
Qed.
Print Assumptions C82_word2vec.

(** C82. Alone, a goroutine does what the atomic models of C44, C48 and C32 say: on its slice of the
    items (GloVe) or of the text. *)
Theorem C82_glove_alone : forall sig rand o g items V dim k next lr rows,
  Forall (fun it => 0 <= it_l1 it < Z.of_nat V /\ 0 <= it_l2 it < Z.of_nat V) items ->
  all_len (S dim) rows -> length rows = (2 * V)%nat -> dict_len (gl_dic g) = V -> glv_Dim o = Z.of_nat dim -> gl_param g = of_rows (S dim) rows ->
  (gl_solver g = Stochastic \/ exists gs, gl_solver g = AdaGrad (of_rows (S dim) gs) /\ all_len (S dim) gs /\ length gs = (2 * V)%nat) ->
  exists p m s, glv_workers o g [items] = [p] /\
    ofold (glove_train_item (glv_Initlr o) (Z.of_nat V)) items (gl_param g, gl_solver g) = Ret (m, s) /\
    prun sig rand p k (glv_mem next lr g) = Ret (k, SMem m (sol_mat s no_matrix) next lr, tt).
Proof.
  intros sig rand o g items V dim k next lr rows HI A L HV Hd Em Hs.
  assert (HS : AdaGrad.sol_ok dim (length rows) (gl_solver g)).
  { rewrite L. destruct Hs as [-> | (gs & -> & Ag & Lg)]; cbn; eauto. }
  destruct (AdaGrad.items_total (glv_Initlr o) dim V items rows (gl_solver g) HI A L HS) as (rows' & s' & E & A' & L' & HS').
  eexists. exists (of_rows (S dim) rows'), s'. split; [reflexivity|]. rewrite Em. split; [exact E|].
  rewrite HV, Hd. unfold glv_mem. rewrite Em. rewrite RaceSeq.prun_items by auto. rewrite E. reflexivity.
Qed.
Print Assumptions C82_glove_alone.

Theorem C82_lexvec_alone : forall sig rand o l slice v,
  Forall (fun id => (id < length (lx_samples l))%nat) slice ->
  exists p, lxv_workers o l [slice] = [p] /\
    prun sig rand p (lv_k v) (SMem (lv_m v) no_matrix (lv_next v) (lv_lr v)) =
    obind (one_pass (lxv_trial rand (lx_samples l)) (lxv_step o (lx_items l) (Z.of_nat (dict_len (c_dic (lx_corpus l))))) slice 0 slice v)
      (fun v' => Ret (lv_k v', SMem (lv_m v') no_matrix (lv_next v') (lv_lr v'), tt)).
Proof.
  intros sig rand o l slice v HF. eexists. split; [reflexivity|]. now apply RaceSeq.prun_lex_worker.
Qed.
Print Assumptions C82_lexvec_alone.

Theorem C82_word2vec_alone : forall sig rand o w slice v dim V rows crows neg,
  w2v_Dim o = Z.of_nat dim -> dict_len (c_dic (wv_corpus w)) = V -> Z.of_nat V < 2 ^ 63 -> w2v_NegativeSampleSize o = neg ->
  Forall (fun id => (id < V)%nat) slice -> (V <= length (wv_samples w))%nat ->
  wv_m v = of_rows dim rows -> all_len dim rows -> length rows = V ->
  wv_o v = NS (of_rows dim crows) neg -> all_len dim crows -> length crows = V ->
  exists p, w2v_workers o w (repeat fzero dim) [slice] = [p] /\
    prun sig rand p (wv_k v) (SMem (wv_m v) (of_rows dim crows) (wv_next v) (wv_lr v)) =
    obind (one_pass (w2v_trial rand (wv_samples w)) (w2v_step sig (wv_mod w) (w2v_Window o) (w2v_Dim o)) slice 0 slice v)
      (fun v' => Ret (wv_k v', SMem (wv_m v') (match wv_o v' with NS ctx _ => ctx | HS _ _ _ => wv_m v' end) (wv_next v') (wv_lr v'), tt)).
Proof.
  intros sig rand o w slice v dim V rows crows neg Hd HV HV63 Hn HF Hs Em A L Eo Ac Lc. eexists. split; [reflexivity|].
  rewrite HV, Hd, Hn, Nat2Z.id.
  pose proof (RaceSeq.prun_w2v_worker sig rand dim V (w2v_Window o) neg HV63 (match wv_mod w with Cbow => true | SkipGram => false end)
    (wv_samples w) slice v HF Hs ltac:(exists rows, crows; auto 8)) as H.
  unfold RaceSeq.vmem in H. rewrite Eo in H. rewrite H. destruct (wv_mod w); reflexivity.
Qed.
Print Assumptions C82_word2vec_alone.

(** Two goroutines on the text a b a: the set-up succeeds and both have work. *)
Example C82_case :
  let id := fun w : gostring => w in let rand := fun _ : nat => f_dec 25 2 in
  let go := glv_new 2 [G_Dim 2; G_DocInMemory; G_Solver "adagrad"] in
  let lo := lex_new 2 [L_Dim 2; L_MinCount 0; L_DocInMemory; L_Relation "co"] in
  let wo := w2v_new 2 [W_Dim 2; W_MinCount 0; W_DocInMemory] in
  glv_usable id go P23_Runs.aba P23_Runs.aba_words /\ lxv_usable id lo P23_Runs.aba P23_Runs.aba_words /\
  w2v_usable id wo P23_Runs.aba P23_Runs.aba_words /\ w2v_OptimizerType wo = "ns"%string /\
  match glv_setup id rand (fun x => x) (fun x _ => x) (fun m => m) go P23_Runs.aba with
  | Ret g0 => match glv_source go g0 with Ret x => (is_ada (gl_solver g0), map (@length item) (parts x)) | _ => (false, []) end
  | _ => (false, []) end = (true, [1; 1]%nat) /\
  match lxv_setup id rand (fun x => x) (fun x _ => x) (fun m => m) lo P23_Runs.aba with
  | Ret l0 => match lxv_source id lo l0 with Ret x => parts x | _ => [] end
  | _ => [] end = [[0; 1]; [0]]%nat /\
  match w2v_setup id rand wo P23_Runs.aba with
  | Ret w0 => match w2v_source id wo w0 with Ret x => parts x | _ => [] end
  | _ => [] end = [[0; 1]; [0]]%nat.
Proof.
  intros id rand go lo wo.
  split; [constructor; cbn -[Z.mul Z.pow]; auto using P23_Runs.aba_readable; try lia; try tauto; vm_compute; discriminate|].
  split; [constructor; cbn -[Z.mul Z.pow]; auto using P23_Runs.aba_readable; try lia; try tauto; vm_compute; discriminate|].
  split; [constructor; cbn -[Z.mul Z.pow]; auto using P23_Runs.aba_readable; try lia; try tauto; vm_compute; discriminate|].
  split; [reflexivity|]. split; [vm_compute; reflexivity|]. split; vm_compute; reflexivity.
Qed.

(** C83. *)
Theorem C83_accumulators_under_races : forall lower rand flog fpow order o doc all g0 x next lr sig, (forall m, Permutation (order m) m) ->
  glv_usable lower o doc all -> glv_setup lower rand flog fpow order o doc = Ret g0 -> glv_source o g0 = Ret x -> is_uint64 next ->
  gl_solver g0 <> Stochastic ->
  forall k n s, during sig (glv_workers o g0 (parts x)) (glv_mem next lr g0) k n s ->
    grid (2 * dict_len (gl_dic g0)) (S (Z.to_nat (glv_Dim o))) (sm_g (y_mem s)) /\
    every_cell (fun q => isnan q = true \/ fge q (f_of_Z 1) = true) (sm_g (y_mem s)).
Proof.
  intros lower rand flog fpow order o doc all g0 x next lr sig HP HU HS Hx HN Ha k n s HD.
  destruct (RaceRuns.training_of sig _ _ _ _ _ (RaceRuns.glv_acc lower rand flog fpow order o doc all g0 x HP HU HS Hx next lr HN)
    (fun m => RaceRuns.glv_survives lower rand flog fpow order o doc all g0 x HP HU HS Hx sig AdaGrad.acc_ok m RaceRuns.acc_step_only) k n s HD) as (_ & (_ & B & C & _) & _).
  split; [|exact C]. destruct (gl_solver g0); [congruence|exact B].
Qed.
Print Assumptions C83_accumulators_under_races.

(** The set-up of C82_case has the AdaGrad solver; after one goroutine's item has been trained some
    accumulator is larger than 1. *)
Example C83_case : let n := f_of_Z in
  let m := SMem (of_rows 2 [[n 1; n 1]; [n 1; n 1]; [n 2; n 1]; [n 3; n 1]]) (of_rows 2 (repeat [n 1; n 1] 4)) 1 (n 0) in
  match prun (fun _ => Panic) (fun _ => fzero) (p_items true (n 1) 1 2 [Item 0 1 (n 0) (n 1)]) 0 m with
  | Ret (_, m', _) => forallb (fun q => fge q (n 1)) (m_array (sm_g m')) && existsb (fun q => fgt q (n 20)) (m_array (sm_g m'))
  | _ => false end = true.
Proof. vm_compute. reflexivity. Qed.

(** C84. Goroutines calling NextRandom at the same time: whatever the interleaving, no call fails,
    every result is in range and the generator's variable stays a uint64. *)
Theorem C84_next_random_concurrent : forall sig next lr clients,
  is_uint64 next -> Forall (Forall (fun v => 1 <= v < 2 ^ 63)) clients ->
  let s0 := Sys (SMem no_matrix no_matrix next lr) (map draws clients) in
  survives sig (length (concat clients) * 3) (fun m => is_uint64 (sm_next m)) never s0 /\
  forall n s i l, sys_runs sig n s0 s -> nth_error (y_threads s) i = Some (PRet l) -> Forall (fun vr => 0 <= snd vr < fst vr) l.
Proof.
  intros sig next lr clients HN HF s0.
  assert (HA : Race.all_safe 0 0 0 0 RaceRuns.any (fun _ => False) (Forall (fun vr => 0 <= snd vr < fst vr)) (map draws clients) (map (fun s => length s * 3)%nat clients)).
  { apply RaceRuns.all_safe_map. intros b Hb. apply RaceRuns.draws_safe. rewrite Forall_forall in HF. exact (HF b Hb). }
  assert (HM : Race.mem_ok 0 0 0 0 RaceRuns.any (SMem no_matrix no_matrix next lr)).
  { apply RaceRuns.mem_ok_iff. assert (G : grid 0 0 no_matrix) by (exists []; repeat split; constructor). repeat split; auto using RaceRuns.any_cells; apply HN. }
  split.
  - apply (Race.survives_safe _ _ _ _ _ _ _ sig _ _ _ _ _ _ HA HM).
    + intros m Hm. apply RaceRuns.mem_ok_iff in Hm. tauto.
    + intros p (y & k & _ & [] & _).
    + rewrite RaceRuns.total_cost. auto.
  - intros n s i l HR HE. destruct (Race.runs_inv _ _ _ _ _ _ _ sig _ _ _ _ _ HA HM HR) as (_ & ns' & HA' & _).
    clear - HE HA'. revert i HE. induction HA' as [|p k ts ns H HA' IH]; intros [|i] HE; try discriminate; cbn in HE; [|eauto].
    injection HE as ->. exact H.
Qed.
Print Assumptions C84_next_random_concurrent.

(** C84. But the goroutines are not given different numbers: any number of them can all draw exactly
    the numbers that one of them would draw alone, and the generator advances as for one. *)
Theorem C84_next_random_repeats : forall sig g bounds P G next lr,
  (1 <= g)%nat -> Forall (fun v => 1 <= v < 2 ^ 63) bounds ->
  exists n, sys_runs sig n (Sys (SMem P G next lr) (repeat (draws bounds) g))
    (Sys (SMem P G (snd (draws_alone bounds next)) lr) (repeat (PRet (fst (draws_alone bounds next))) g)).
Proof.
  intros sig g bounds P G next lr Hg HF.
  exact (Twins.twins_lemma sig (fun _ => fzero) g Hg (draws bounds) 0 (SMem P G next lr) _ _ _ (Twins.draws_prun sig (fun _ => fzero) bounds 0 _ HF)).
Qed.
Print Assumptions C84_next_random_repeats.


Example C84_case : draws_alone [10; 1000; 7] 1 = ([(10, 8); (1000, 43); (7, 1)], 4749291277619109362).
Proof. vm_compute. reflexivity. Qed.

(** C85. Updates can be lost: any number of goroutines with the same work can leave the memory that
    one of them alone would have left. *)
Theorem C85_same_work : forall sig rand g (p : prog unit) k m k' m',
  (1 <= g)%nat -> prun sig rand p k m = Ret (k', m', tt) ->
  exists n, sys_runs sig n (Sys m (repeat p g)) (Sys m' (repeat (PRet tt) g)).
Proof. intros sig rand g p k m k' m' Hg H. exact (Twins.twins_lemma sig rand g Hg p k m k' m' tt H). Qed.
Print Assumptions C85_same_work.

(** C85. LexVec on a text whose slices are equal: an iteration of [g] goroutines can end with the
    parameters of one sequential pass over a single slice. *)
Theorem C85_lexvec : forall lower rand flog fpow order o doc all l0 x next lr sig slice g, (forall m, Permutation (order m) m) ->
  lxv_usable lower o doc all -> lxv_setup lower rand flog fpow order o doc = Ret l0 -> lxv_source lower o l0 = Ret x -> is_uint64 next ->
  parts x = repeat slice g -> (1 <= g)%nat ->
  exists v n, one_pass (lxv_trial rand (lx_samples l0)) (lxv_step o (lx_items l0) (Z.of_nat (dict_len (c_dic (lx_corpus l0))))) slice 0 slice (lxv_start next lr l0) = Ret v /\
    sys_runs sig n (Sys (lxv_mem next lr l0) (lxv_workers o l0 (parts x))) (Sys (SMem (lv_m v) no_matrix (lv_next v) (lv_lr v)) (repeat (PRet tt) g)).
Proof.
  intros lower rand flog fpow order o doc all l0 x next lr sig slice g HP HU HS Hx HN Ep Hg.
  destruct (RunModels.lxv_chunks lower rand flog fpow order o doc all HU HP l0 HS x Hx) as (_ & HF & _).
  destruct (RunModels.lxv_ready_l0 lower rand flog fpow order o doc all HU HP l0 HS) as (_ & _ & _ & _ & _ & _ & Hs). rewrite <- Hs in HF.
  assert (HFs : Forall (fun id => (id < length (lx_samples l0))%nat) slice).
  { change (Proofs.Sched.pending x) with (parts x) in HF. rewrite Ep in HF. destruct g; [lia|]. inversion HF; auto. }
  destruct (C82_lexvec_alone sig rand o l0 slice (lxv_start next lr l0) HFs) as (p & Ew & EP). injection Ew as <-.
  destruct (RaceRuns.lxv_alone_total lower rand flog fpow order o doc all l0 x HP HU HS Hx sig rand next lr slice HN ltac:(rewrite Ep; destruct g; [lia|now left]) (lv_k (lxv_start next lr l0))) as (k' & m' & E).
  cbn [lxv_start lv_m lv_next lv_lr] in EP. unfold lxv_mem in E. rewrite E in EP.
  destruct (one_pass _ _ _ _ _ _) as [v|e|] eqn:EV; cbn [obind] in EP; try discriminate. injection EP as -> ->.
  destruct (C85_same_work sig rand g _ _ _ _ _ Hg E) as (n & HR). exists v, n. split; [reflexivity|].
  unfold lxv_workers, lxv_mem. rewrite Ep. replace (map _ (repeat slice g)) with (repeat (p_lex_worker (lex_Dim o) (lx_items l0) (Z.of_nat (dict_len (c_dic (lx_corpus l0)))) (lex_Window o) (lex_NegativeSampleSize o) (lx_samples l0) slice) g) by (clear; induction g; cbn; congruence). exact HR.
Qed.
Print Assumptions C85_lexvec.

(** Two goroutines with the same slice: the text a b a b. *)
Example C85_case : let id := fun w : gostring => w in
  let doc := {| rd_data := bs "a b a b"; rd_pos := 0; rd_err := false |} in
  let o := lex_new 2 [L_Dim 2; L_MinCount 0; L_DocInMemory; L_Relation "co"] in
  match lxv_setup id (fun _ => f_dec 25 2) (fun x => x) (fun x _ => x) (fun m => m) o doc with
  | Ret l0 => match lxv_source id o l0 with Ret x => parts x | _ => [] end
  | _ => [] end = repeat [0; 1]%nat 2.
Proof. vm_compute. reflexivity. Qed.

(** C85. GloVe with SGD and two different items: an interleaving whose result is neither that of the
    one order nor that of the other. *)
Theorem C85_glove_lost_update : forall sig rand,
  let n := f_of_Z in let a := Item 0 1 (n 1) (n 1) in let b := Item 0 2 (n 1) (n 1) in
  let m0 := SMem (of_rows 1 (repeat [n 0] 6)) no_matrix 1 (n 0) in
  let work := p_items false (n 1) 0 3 in
  exists k s, sys_runs sig k (Sys m0 [work [a]; work [b]]) s /\ forallb pdone (y_threads s) = true /\
    forall items, items = [a; b] \/ items = [b; a] ->
      exists m, prun sig rand (work items) 0 m0 = Ret (0%nat, m, tt) /\ sm_p m <> sm_p (y_mem s).
Proof.
  intros sig rand n a b m0 work.
  pose (sched := (repeat 0 5 ++ repeat 1 16 ++ repeat 0 11)%nat).
  assert (E : match RaceRuns.follow sig sched (Sys m0 [work [a]; work [b]]) with
              | Ret s => Some (forallb pdone (y_threads s), map fshow (m_array (sm_p (y_mem s)))) | _ => None end
            = Some (true, map fshow (map n [1; 0; 1; 1; 1; 1]))) by (vm_compute; reflexivity).
  destruct (RaceRuns.follow sig sched (Sys m0 [work [a]; work [b]])) as [s|e|] eqn:EF; [|discriminate E|discriminate E].
  destruct (RaceRuns.follow_runs sig _ _ _ EF) as (k & HR). exists k, s. split; [exact HR|].
  injection E as E1 E2. split; [exact E1|]. intros items HI.
  assert (HX : match prun sig rand (work items) 0 m0 with Ret (0%nat, m, tt) => Some (map fshow (m_array (sm_p m))) | _ => None end
             = Some (map fshow (map n (if match items with [x; _] => it_l2 x =? 1 | _ => true end then [1; 1; 0; 1; 1; 0] else [1; 0; 1; 1; 0; 1])))).
  { destruct HI as [-> | ->]; vm_compute; reflexivity. }
  destruct (prun sig rand (work items) 0 m0) as [[[[|k'] m] []]|e|]; [|discriminate HX|discriminate HX|discriminate HX]. exists m. split; [reflexivity|].
  intros C. rewrite C, E2 in HX. revert HX. destruct HI as [-> | ->]; vm_compute; discriminate.
Qed.
Print Assumptions C85_glove_lost_update.
