(** * C106: infinite and NaN parameters

    Specification: Spec/Lasting.v. [vruns .. n l v l' v']: an execution with [n] steps from the
    configuration [l], [v] to [l'], [v'], one trainOne call being one step, for any schedule; every
    configuration that training reaches is such an [l], [v]. *)
From Coq Require Import Lia Permutation.
From Verif.Lib Require Import Go F64 F64Facts.
From Verif.Spec Require Import Rows Training Cells Readable Runs Race Lasting.
From Verif.Model Require Import Dictionary Reader Matrix Cells ModelUtil Sigmoid Word2vec Glove Lexvec Options Train Sched Run Race.
From Verif.Proofs Require Word2vec Cells Glove Lexvec Lasting RaceRuns.
From Verif.Properties Require P23_Runs.
Local Open Scope Z_scope.

(** C106. GloVe: no schedule of training ever makes a component finite again, in the vectors, the biases
    or the accumulators of AdaGrad. *)
Theorem C106_glove_lasting : forall o V iter mk n l m s l' m' s',
  vruns (glv_cfg o) (glv_effects o V) iter mk n l (m, s) l' (m', s') ->
  lasting m m' /\
  match s, s' with Stochastic, Stochastic => True | AdaGrad g, AdaGrad g' => lasting g g' | _, _ => False end.
Proof.
  intros o V iter mk n l m s l' m' s' H.
  apply (Lasting.vruns_rel (fun a b => Lasting.M (fst a) (fst b) /\ Lasting.Sol (snd a) (snd b))) in H.
  - cbn [fst snd] in H. destruct H as (A & B). split; [apply Lasting.M_lasting, A|]. destruct s, s'; cbn in B; auto. apply Lasting.M_lasting, B.
  - intros v. split; auto using Lasting.M_refl, Lasting.Sol_refl.
  - intros a b c (A & B) (C & D). split; eauto using Lasting.M_trans, Lasting.Sol_trans.
  - intros x v v' b E. cbn in E. assert (v' = v) by congruence. subst. split; auto using Lasting.M_refl, Lasting.Sol_refl.
  - intros d pos v v' E. cbn in E. destruct (nth_error d pos) as [it|]; [|discriminate E]. eapply Lasting.M_item. symmetry. exact E.
  - intros k v v' E. cbn in E. destruct (_ && _); [discriminate E|]. assert (v' = v) by congruence. subst. split; auto using Lasting.M_refl, Lasting.Sol_refl.
Qed.
Print Assumptions C106_glove_lasting.

Theorem C106_lexvec_lasting : forall rand o lx iter mk n l v l' v',
  vruns (lxv_cfg o) (lxv_effects rand o lx) iter mk n l v l' v' -> lasting (lv_m v) (lv_m v').
Proof.
  intros rand o lx iter mk n l v l' v' H. apply Lasting.M_lasting.
  apply (Lasting.vruns_rel (fun a b => Lasting.M (lv_m a) (lv_m b))) in H; [exact H| | | | |].
  - intros; apply Lasting.M_refl.
  - intros a b c. apply Lasting.M_trans.
  - intros x w w' b E. cbn in E. unfold lxv_trial in E. Lasting.ob E t Et. assert (w' = LVals (lv_next w) (lv_m w) (lv_lr w) (S (lv_k w))) by congruence. subst. apply Lasting.M_refl.
  - intros d pos w w' E. cbn in E. unfold lxv_work in E. symmetry in E. Lasting.ob E nm Enm. destruct nm as (nx, m1).
    assert (w' = LVals nx m1 (lv_lr w) (lv_k w)) by congruence. subst. apply Lasting.M_lex_train_one in Enm. exact Enm.
  - intros k w w' E. cbn in E. unfold lxv_tick in E. Lasting.ob E r Er. assert (w' = LVals (lv_next w) (lv_m w) r (lv_k w)) by congruence. subst. apply Lasting.M_refl.
Qed.
Print Assumptions C106_lexvec_lasting.

(** word2vec: the vectors, with either optimizer, and the context vectors of negative sampling. *)
Theorem C106_word2vec_lasting : forall sig rand o w iter mk n l v l' v',
  vruns (w2v_cfg o) (w2v_effects sig rand o w) iter mk n l v l' v' ->
  lasting (wv_m v) (wv_m v') /\
  match wv_o v, wv_o v' with NS c k, NS c' k' => lasting c c' /\ k' = k | HS _ _ _, HS _ _ _ => True | _, _ => False end.
Proof.
  intros sig rand o w iter mk n l v l' v' H.
  apply (Lasting.vruns_rel (fun a b => Lasting.M (wv_m a) (wv_m b) /\ Lasting.Opt (wv_o a) (wv_o b))) in H.
  - destruct H as (A & B). split; [apply Lasting.M_lasting, A|]. destruct (wv_o v), (wv_o v'); cbn in B; auto. split; [apply Lasting.M_lasting|]; apply B.
  - intros u. split; auto using Lasting.M_refl, Lasting.Opt_refl.
  - intros a b c (A & B) (C & D). split; eauto using Lasting.M_trans, Lasting.Opt_trans.
  - intros x u u' b E. cbn in E. unfold w2v_trial in E. Lasting.ob E t Et. assert (u' = WVals (wv_next u) (wv_m u) (wv_o u) (wv_lr u) (S (wv_k u))) by congruence. subst.
    cbn [wv_m wv_o]. split; auto using Lasting.M_refl, Lasting.Opt_refl.
  - intros d pos u u' E. cbn in E. unfold w2v_work in E. destruct E as (agg & tmp & _ & _ & E). symmetry in E. Lasting.ob E s Es.
    assert (u' = WVals (s_next s) (s_param s) (s_opt s) (wv_lr u) (wv_k u)) by congruence. subst. cbn [wv_m wv_o].
    destruct (wv_mod w); [apply Lasting.W_sg in Es|apply Lasting.W_cb in Es]; destruct Es as (A & B); cbn [s_param s_opt] in A, B; auto.
  - intros k u u' E. cbn in E. unfold w2v_tick in E. Lasting.ob E r Er. assert (u' = WVals (wv_next u) (wv_m u) (wv_o u) r (wv_k u)) by congruence. subst.
    cbn [wv_m wv_o]. split; auto using Lasting.M_refl, Lasting.Opt_refl.
Qed.
Print Assumptions C106_word2vec_lasting.

(** C106. One NaN component spreads: when GloVe updates a pair of rows of which one has a NaN component (or
    a NaN bias), afterwards every component of both is NaN. *)
Theorem C106_sgd_spreads : forall dim rows r1 r2 lr f coef,
  r1 <> r2 -> all_len (S dim) rows -> (r1 < length rows)%nat -> (r2 < length rows)%nat ->
  some_nan (nth r1 rows []) \/ some_nan (nth r2 rows []) ->
  exists rows', sgd_train_one lr (Z.of_nat r1) (Z.of_nat r2) f coef (of_rows (S dim) rows) = Ret (of_rows (S dim) rows') /\
    all_len (S dim) rows' /\ length rows' = length rows /\ all_nan (nth r1 rows' []) /\ all_nan (nth r2 rows' []).
Proof. exact Lasting.sgd_spreads. Qed.
Print Assumptions C106_sgd_spreads.

Theorem C106_adagrad_spreads : forall dim rows gs r1 r2 lr f coef,
  r1 <> r2 -> all_len (S dim) rows -> (r1 < length rows)%nat -> (r2 < length rows)%nat -> all_len (S dim) gs -> length gs = length rows ->
  some_nan (nth r1 rows []) \/ some_nan (nth r2 rows []) ->
  exists rows' gs', ada_train_one lr (Z.of_nat r1) (Z.of_nat r2) f coef (of_rows (S dim) rows, of_rows (S dim) gs) = Ret (of_rows (S dim) rows', of_rows (S dim) gs') /\
    all_len (S dim) rows' /\ length rows' = length rows /\ all_len (S dim) gs' /\ length gs' = length rows /\ all_nan (nth r1 rows' []) /\ all_nan (nth r2 rows' []).
Proof. exact Lasting.ada_spreads. Qed.
Print Assumptions C106_adagrad_spreads.

(** The same in LexVec, where the two rows may be one. *)
Theorem C106_lexvec_spreads : forall dim rows a b lr f, all_len dim rows -> (a < length rows)%nat -> (b < length rows)%nat ->
  some_nan (nth a rows []) \/ some_nan (nth b rows []) ->
  exists rows', lex_update (Z.of_nat dim) lr (Z.of_nat a) (Z.of_nat b) f (of_rows dim rows) = Ret (of_rows dim rows') /\
    all_len dim rows' /\ length rows' = length rows /\ all_nan (nth a rows' []) /\ all_nan (nth b rows' []).
Proof. exact Lasting.lex_spreads. Qed.
Print Assumptions C106_lexvec_spreads.

(** C106. word2vec with negative sampling does not spread it: training a position whose (shrunk) window
    contains a word with a NaN component does not return, with either model. *)
Theorem C106_word2vec_stops : forall exp window doc pos lr st m k c u row,
  1 <= window < 2 ^ 63 -> s_opt st = NS m k -> 0 <= k ->
  In c (context pos (window - lcg (s_next st) mod window) (length doc)) -> zindex doc c = Some u ->
  mat_slice (s_param st) u = Ret row -> some_nan row ->
  (forall st', sg_train_one (sigmoid (sig_table exp)) window doc pos lr st <> Ret st') /\
  (forall st', cb_train_one (sigmoid (sig_table exp)) window doc pos lr st <> Ret st').
Proof.
  intros exp window doc pos lr st m k c u row HW Eo Hk Hc Eu Er HN. split; intros st'.
  - exact (Lasting.sg_stops exp window doc pos lr HW st m k c u row st' Eo Hk Hc Eu Er HN).
  - exact (Lasting.cb_stops exp window doc pos lr HW st m k c u row st' Eo Hk Hc Eu Er HN).
Qed.
Print Assumptions C106_word2vec_stops.

(** C106. That whole trainOne calls are steps matters: with data races (statement by statement, C82) a NaN
    can be overwritten by a finite number that another goroutine has computed before. Two goroutines of
    GloVe, items (0,1) and (0,2); the context row of word 2 is NaN. *)
Theorem C106_race_overwrites : forall sig,
  let n := f_of_Z in let a := Item 0 1 (n 1) (n 1) in let b := Item 0 2 (n 1) (n 1) in
  let m0 := SMem (of_rows 2 [[n 1; n 0]; [n 1; n 0]; [n 1; n 0]; [n 1; n 0]; [n 1; n 0]; [fnan; n 0]]) no_matrix 1 (n 0) in
  let work := p_items false (n 1) 1 3 in
  exists k1 s1 k2 s2 x1 x2, sys_runs sig k1 (Sys m0 [work [a]; work [b]]) s1 /\ sys_runs sig k2 s1 s2 /\
    forallb pdone (y_threads s2) = true /\
    cell (sm_p (y_mem s1)) 0 0 = Ret x1 /\ isnan x1 = true /\ cell (sm_p (y_mem s2)) 0 0 = Ret x2 /\ is_fin x2 = true.
Proof.
  intros sig n a b m0 work.
  pose (sched1 := (repeat 0 9 ++ repeat 1 40)%nat). pose (sched2 := (repeat 0 40)%nat).
  assert (E : match RaceRuns.follow sig sched1 (Sys m0 [work [a]; work [b]]) with
              | Ret s1 => match RaceRuns.follow sig sched2 s1 with
                | Ret s2 => match cell (sm_p (y_mem s1)) 0 0, cell (sm_p (y_mem s2)) 0 0 with
                            | Ret x1, Ret x2 => forallb pdone (y_threads s2) && isnan x1 && is_fin x2
                            | _, _ => false end
                | _ => false end
              | _ => false end = true) by (vm_compute; reflexivity).
  destruct (RaceRuns.follow sig sched1 (Sys m0 [work [a]; work [b]])) as [s1|e|] eqn:E1; [|discriminate E|discriminate E].
  destruct (RaceRuns.follow sig sched2 s1) as [s2|e|] eqn:E2; [|discriminate E|discriminate E].
  destruct (cell (sm_p (y_mem s1)) 0 0) as [x1|e|] eqn:C1; [|discriminate E|discriminate E].
  destruct (cell (sm_p (y_mem s2)) 0 0) as [x2|e|] eqn:C2; [|discriminate E|discriminate E].
  destruct (RaceRuns.follow_runs sig _ _ _ E1) as (k1 & H1). destruct (RaceRuns.follow_runs sig _ _ _ E2) as (k2 & H2).
  apply andb_prop in E. destruct E as (E & F2). apply andb_prop in E. destruct E as (D & F1).
  exists k1, s1, k2, s2, x1, x2. auto 10.
Qed.
Print Assumptions C106_race_overwrites.

(** C106. NaN does occur: a GloVe training (a b a, dimension 2, one goroutine) with the rate 1e200 leaves
    only NaN in the parameters; whatever the schedule, by C79. *)
Theorem C106_occurs : let id := fun w : gostring => w in
  let o := glv_new 1 [G_Dim 2; G_DocInMemory; G_Initlr (f_of_Z (10 ^ 200))] in
  exists g, glv_trained id (fun _ => f_dec 25 2) (fun x => x) (fun x _ => x) (fun m => m) o P23_Runs.aba g /\ all_nan (m_array (gl_param g)) /\ length (m_array (gl_param g)) = 12%nat.
Proof.
  intros id o.
  assert (HU : glv_usable id o P23_Runs.aba P23_Runs.aba_words).
  { constructor; cbn -[Z.mul Z.pow]; auto using P23_Runs.aba_readable; try lia; try tauto; vm_compute; discriminate. }
  assert (E : match glv_setup id (fun _ => f_dec 25 2) (fun x => x) (fun x _ => x) (fun m => m) o P23_Runs.aba with
              | Ret g0 => match ofold (glove_train_item (glv_Initlr o) (Z.of_nat (dict_len (gl_dic g0)))) (concat (repeat (gl_items g0) (Z.to_nat (glv_Iter o)))) (gl_param g0, gl_solver g0) with
                          | Ret (m, s) => forallb (fun x => isnan x) (m_array m) && Nat.eqb (length (m_array m)) 12 | _ => false end
              | _ => false end = true) by (vm_compute; reflexivity).
  destruct (glv_setup id (fun _ => f_dec 25 2) (fun x => x) (fun x _ => x) (fun m => m) o P23_Runs.aba) as [g0|e|] eqn:ES; [|discriminate E|discriminate E].
  destruct (P23_Runs.C79_glove_one_goroutine id (fun _ => f_dec 25 2) (fun x => x) (fun x _ => x) (fun m => m) o P23_Runs.aba _ g0 (fun m => Permutation_refl m) HU eq_refl ES) as (m & sol & EF & HT).
  rewrite EF in E. apply andb_prop in E. destruct E as (E1 & E2). exists (Glv (gl_dic g0) m sol (gl_items g0)). split; [apply HT; reflexivity|]. cbn [gl_param].
  split; [apply Forall_forall; intros x Hx; rewrite forallb_forall in E1; exact (E1 x Hx)|apply Nat.eqb_eq, E2].
Qed.
Print Assumptions C106_occurs.

(** The hypotheses of the spreading theorems and of [C106_word2vec_stops] are met: rows of which one has one NaN. *)
Example C106_case : let n := f_of_Z in let rows := [[n 1; n 2]; [n 3; fnan]] in
  all_len 2 rows /\ some_nan (nth 1 rows []) /\ ~ some_nan (nth 0 rows []) /\
  In 1 (context 0 (2 - lcg 1 mod 2) (length [0; 1])) /\ zindex [0; 1] 1 = Some 1 /\ mat_slice (of_rows 2 rows) 1 = Ret (nth 1 rows []).
Proof.
  intros n rows. split; [repeat constructor|]. split; [exists fnan; split; [cbn; auto|reflexivity]|].
  split; [intros (x & [<-|[<-|[]]] & Hx); discriminate Hx|]. split; [vm_compute; auto|]. split; reflexivity.
Qed.
