(** Infinities and NaNs in the parameters are never removed by training. *)
From Coq Require Import Lia.
From Verif.Lib Require Import Go F64 F64Facts ListFacts Tac.
From Verif.Spec Require Import Rows Training Cells Lasting.
From Verif.Model Require Import Matrix Cells ModelUtil Huffman Window Sigmoid Word2vec Glove Lexvec LearningRate Options Train Sched Run.
From Verif.Proofs Require Import Word2vec.
From Verif.Proofs Require Cells Window Glove Lexvec Sigmoid.
Local Open Scope Z_scope.

Lemma obind_ret {A B} (x : outcome A) (f : A -> outcome B) b : obind x f = Ret b -> exists a, x = Ret a /\ f a = Ret b.
Proof. destruct x; cbn; intros H; try discriminate H. eauto. Qed.

Definition R (x y : f64) : Prop := (is_fin x = false -> is_fin y = false) /\ (isnan x = true -> isnan y = true).
Lemma R_refl x : R x x. Proof. split; auto. Qed.
Lemma R_trans x y z : R x y -> R y z -> R x z. Proof. intros (A & B) (C & D). split; auto. Qed.
Lemma R_add x t : R x (fadd x t).
Proof. split; intros H; destruct x as [?|[|]| |? ? ? ?]; try discriminate H; destruct t as [?|[|]| |? ? ? ?]; reflexivity. Qed.
Lemma R_sub x t : R x (fsub x t).
Proof. split; intros H; destruct x as [?|[|]| |? ? ? ?]; try discriminate H; destruct t as [?|[|]| |? ? ? ?]; reflexivity. Qed.

Definition Rs := Forall2 R.
Lemma Rs_len l l' : Rs l l' -> length l = length l'. Proof. induction 1; cbn; congruence. Qed.
Lemma Rs_refl l : Rs l l. Proof. induction l; constructor; auto using R_refl. Qed.
Lemma Rs_trans a b c : Rs a b -> Rs b c -> Rs a c.
Proof. intros H. revert c. induction H as [|x y a b Hx H IH]; intros c K; inversion K; subst; constructor; eauto using R_trans. exact (IH _ H4). Qed.
Lemma Rs_app a a' b b' : Rs a a' -> Rs b b' -> Rs (a ++ b) (a' ++ b').
Proof. apply Forall2_app. Qed.
Lemma Rs_upd l i x y : nth_error l i = Some x -> R x y -> Rs l (upd l i y).
Proof.
  revert i. induction l as [|a l IH]; intros [|i] E H; try discriminate E; cbn [upd].
  - cbn in E. assert (a = x) by congruence. subst. constructor; [exact H|apply Rs_refl].
  - constructor; [apply R_refl|]. exact (IH i E H).
Qed.
Lemma Rs_vacc g dst src out : (forall d s, R d (g d s)) -> vacc g dst src = Ret out -> Rs dst out.
Proof.
  intros Hg. revert src out. induction dst as [|d dst IH]; intros [|s src] out E; cbn [vacc] in E; try discriminate E; try (injection E as <-; apply Rs_refl).
  apply obind_ret in E. destruct E as (l & El & E). assert (out = g d s :: l) by congruence. subst out. constructor; [apply Hg|eapply IH; exact El].
Qed.
Lemma Rs_vadd_into dst src out : vadd_into dst src = Ret out -> Rs dst out.
Proof. unfold vadd_into. destruct (_ <? _)%nat; [discriminate|]. apply Rs_vacc. intros; apply R_add. Qed.

Definition M (m m' : matrix) : Prop := m_row m' = m_row m /\ m_col m' = m_col m /\ Rs (m_array m) (m_array m').
Lemma M_refl m : M m m. Proof. repeat split; auto using Rs_refl. Qed.
Lemma M_trans a b c : M a b -> M b c -> M a c.
Proof. intros (A & B & C) (D & E & F). repeat split; try congruence. eapply Rs_trans; eauto. Qed.

Lemma M_store m i r r' : mat_slice m i = Ret r -> Rs r r' -> M m (mat_store m i r').
Proof.
  unfold mat_slice. destruct (slice_ok _ _ _) eqn:E; [|discriminate]. intros H HR. unfold slice_ok in E.
  apply andb_prop in E. destruct E as (E & E3). apply andb_prop in E. destruct E as (E1 & E2). apply Z.leb_le in E1, E2, E3.
  assert (Er : r = firstn (Z.to_nat (m_col m)) (skipn (Z.to_nat (start_index m i)) (m_array m))) by congruence. clear H.
  assert (Hl : length r' = Z.to_nat (m_col m)).
  { rewrite <- (Rs_len _ _ HR). subst r. rewrite firstn_length, skipn_length. lia. }
  repeat split; cbn [m_row m_col m_array mat_store]; auto.
  set (s := Z.to_nat (start_index m i)) in *. set (n := Z.to_nat (m_col m)) in *. rewrite Hl.
  rewrite <- (firstn_skipn s (m_array m)) at 1. apply Rs_app; [apply Rs_refl|].
  rewrite <- (firstn_skipn n (skipn s (m_array m))). apply Rs_app; [subst r; exact HR|].
  rewrite (skipn_add s n). apply Rs_refl.
Qed.

Lemma M_set_cell m r i x y m' : cell m r i = Ret x -> R x y -> set_cell m r i y = Ret m' -> M m m'.
Proof.
  unfold cell, set_cell. intros Hc HR H. apply obind_ret in Hc. destruct Hc as (row & Er & Hc). rewrite Er in H. cbn [obind] in H.
  destruct (zindex row i) eqn:Ez; [|discriminate H]. assert (f = x) by congruence. subst f. assert (m' = mat_store m r (upd row (Z.to_nat i) y)) by congruence. subst m'.
  apply (M_store m r row _ Er). apply (Rs_upd row _ x); [|exact HR]. unfold zindex in Ez. destruct (i <? 0); [discriminate Ez|exact Ez].
Qed.
Lemma M_sub m r i t m' : sub_cell m r i t = Ret m' -> M m m'.
Proof. unfold sub_cell. intros H. apply obind_ret in H. destruct H as (x & Ex & H). exact (M_set_cell m r i x _ m' Ex (R_sub x t) H). Qed.
Lemma M_add m r i t m' : add_cell m r i t = Ret m' -> M m m'.
Proof. unfold add_cell. intros H. apply obind_ret in H. destruct H as (x & Ex & H). exact (M_set_cell m r i x _ m' Ex (R_add x t) H). Qed.

Ltac chain := repeat match goal with
  | H : sub_cell _ _ _ _ = Ret _ |- _ => apply M_sub in H
  | H : add_cell _ _ _ _ = Ret _ |- _ => apply M_add in H
  end;
  repeat match goal with
  | H : M ?a ?c |- M ?a ?c => exact H
  | H : M ?a ?b |- M ?a _ => apply (M_trans a b _ H); clear H
  end.
Ltac ob H x E := apply obind_ret in H; destruct H as (x & E & H).

Lemma M_pair_loop d l1 l2 : forall n i m m', pair_loop d l1 l2 n i m = Ret m' -> M m m'.
Proof.
  induction n as [|n IH]; intros i m m' H; cbn [pair_loop] in H.
  - assert (m' = m) by congruence. subst. apply M_refl.
  - ob H b Eb. ob H a Ea. ob H m1 E1. ob H m2 E2. apply IH in H. chain.
Qed.

(** ** GloVe *)
Lemma M_sgd lr l1 l2 f coef m m' : sgd_train_one lr l1 l2 f coef m = Ret m' -> M m m'.
Proof.
  unfold sgd_train_one. intros H. ob H v1 E1. ob H v2 E2. cbv zeta in H. ob H s Es. ob H b1 Eb1. ob H b2 Eb2. ob H m1 Em1. ob H m2 Em2.
  apply M_pair_loop in Em1. chain.
Qed.
Lemma M_ada_loop d l1 l2 : forall n i m g m' g', ada_loop d l1 l2 n i m g = Ret (m', g') -> M m m' /\ M g g'.
Proof.
  induction n as [|n IH]; intros i m g m' g' H; cbn [ada_loop] in H.
  - assert (m' = m /\ g' = g) as (-> & ->) by (split; congruence). split; apply M_refl.
  - ob H b Eb. ob H a Ea. cbv zeta in H. ob H g1 E1. ob H g2 E2. ob H q1 Eq1. ob H q2 Eq2. ob H m1 E3. ob H m2 E4.
    apply IH in H. destruct H as (A & B). split; chain.
Qed.
Lemma M_ada lr l1 l2 f coef m g m' g' : ada_train_one lr l1 l2 f coef (m, g) = Ret (m', g') -> M m m' /\ M g g'.
Proof.
  unfold ada_train_one. intros H. ob H v1 E1. ob H v2 E2. ob H v3 E3. ob H v4 E4. cbv zeta in H. ob H s Es. ob H b1 Eb1. ob H b2 Eb2. ob H mg Eg.
  destruct mg as (m1, g1). ob H q1 Eq1. ob H m2 Em2. ob H q2 Eq2. ob H m3 Em3. ob H g2 Eg2. ob H g3 Eg3.
  assert (m' = m3 /\ g' = g3) as (-> & ->) by (split; congruence). apply M_ada_loop in Eg. destruct Eg as (A & B).
  split; chain.
Qed.

Definition Sol (s s' : solver) : Prop := match s, s' with Stochastic, Stochastic => True | AdaGrad g, AdaGrad g' => M g g' | _, _ => False end.
Lemma Sol_refl s : Sol s s. Proof. destruct s; cbn; auto using M_refl. Qed.
Lemma Sol_trans a b c : Sol a b -> Sol b c -> Sol a c.
Proof. destruct a, b, c; cbn; try tauto. apply M_trans. Qed.
Lemma M_solver lr l1 l2 f coef st st' : solver_train_one lr l1 l2 f coef st = Ret st' -> M (fst st) (fst st') /\ Sol (snd st) (snd st').
Proof.
  destruct st as (m, [|g]); unfold solver_train_one; cbn [fst snd]; intros H; apply obind_ret in H.
  - destruct H as (m1 & E & H). assert (st' = (m1, Stochastic)) by congruence. subst. cbn. split; [eapply M_sgd; exact E|exact I].
  - destruct H as ((m1, g1) & E & H). assert (st' = (m1, AdaGrad g1)) by congruence. subst. cbn. eapply M_ada; exact E.
Qed.
Lemma M_item lr V it st st' : glove_train_item lr V it st = Ret st' -> M (fst st) (fst st') /\ Sol (snd st) (snd st').
Proof.
  unfold glove_train_item. intros H. ob H s1 E. apply M_solver in E, H. destruct E, H. eauto using M_trans, Sol_trans.
Qed.

(** ** LexVec *)
Lemma M_lex_update dim lr l1 l2 f m m' : lex_update dim lr l1 l2 f m = Ret m' -> M m m'.
Proof. unfold lex_update. intros H. ob H s E. cbv zeta in H. eapply M_pair_loop; exact H. Qed.
Lemma M_lex_negatives dim lr items V w : forall n st st', lex_negatives dim lr items V w n st = Ret st' -> M (snd st) (snd st').
Proof.
  induction n as [|n IH]; intros st st' H; cbn [lex_negatives] in H.
  - assert (st' = st) by congruence. subst. apply M_refl.
  - destruct (next_random (fst st) V) as (nx, q). ob H sm E. cbv zeta in H. ob H m1 E1. apply IH in H. cbn [snd] in H. apply M_lex_update in E1. eauto using M_trans.
Qed.
Lemma M_lex_body dim lr items V neg doc pos c st st' : lex_body dim lr items V neg doc pos c st = Ret st' -> M (snd st) (snd st').
Proof.
  unfold lex_body. destruct (zindex doc pos) as [w|]; [|discriminate]. destruct (zindex doc c) as [u|]; [|discriminate]. cbv zeta. intros H.
  ob H m1 E1. apply M_lex_negatives in H. apply M_lex_update in E1. cbn [snd] in H. eauto using M_trans.
Qed.
Lemma win_loop_rel {St} (P : St -> St -> Prop) (body : Z -> St -> outcome St) len pos window :
  (forall s, P s s) -> (forall a b c, P a b -> P b c -> P a c) -> (forall c s s', body c s = Ret s' -> P s s') ->
  forall n a s s', win_loop body len pos window n a s = Ret s' -> P s s'.
Proof.
  intros Hr Ht Hb. induction n as [|n IH]; intros a s s' H; cbn [win_loop] in H.
  - assert (s' = s) by congruence. subst. apply Hr.
  - ob H s1 E. apply IH in H. apply (Ht _ s1); [|exact H]. destruct (a =? window); [assert (s1 = s) by congruence; subst; apply Hr|].
    destruct (_ || _); [assert (s1 = s) by congruence; subst; apply Hr|]. eapply Hb; exact E.
Qed.
Lemma M_lex_train_one dim lr items V window neg doc pos st st' : lex_train_one dim lr items V window neg doc pos st = Ret st' -> M (snd st) (snd st').
Proof.
  unfold lex_train_one. destruct (next_random (fst st) window) as (nx, q). intros H. ob H del E. unfold windowed in H.
  change (M (snd (nx, snd st)) (snd st')).
  revert H. generalize (nx, snd st) as s0. intros s0 H.
  apply (win_loop_rel (fun a b => M (snd a) (snd b)) (lex_body dim lr items V neg doc pos) (Z.of_nat (length doc)) pos window) in H; auto using M_refl.
  - intros a b c. apply M_trans.
  - intros c s s' E'. eapply M_lex_body; exact E'.
Qed.

(** ** word2vec *)
Section W.
Variable sig : f64 -> outcome f64.
Lemma M_ns_step lr ctx label p m tmp m' tmp' : ns_step sig lr ctx label p m tmp = Ret (m', tmp') -> M m m'.
Proof.
  unfold ns_step. intros H. ob H row E. ob H inner Ei. ob H g Eg. ob H t Et. ob H r' Er. assert (m' = mat_store m p r') by congruence. subst.
  apply (M_store m p row _ E). eapply Rs_vacc; [|exact Er]. intros; apply R_add.
Qed.
Lemma M_ns_negatives lr ctx id : forall n next m tmp next' m' tmp', ns_negatives sig lr ctx id n next m tmp = Ret (next', m', tmp') -> M m m'.
Proof.
  induction n as [|n IH]; intros next m tmp next' m' tmp' H; cbn [ns_negatives] in H.
  - assert (m' = m) by congruence. subst. apply M_refl.
  - destruct (next_random next (m_row m)) as (nx, q). ob H p Ep. destruct (id =? p); [eapply IH; exact H|]. ob H mt E. destruct mt as (m1, t1).
    apply IH in H. apply M_ns_step in E. eauto using M_trans.
Qed.
Definition Opt (a b : optimizer) : Prop := match a, b with NS m k, NS m' k' => M m m' /\ k' = k | HS _ set d, HS _ set' d' => set' = set /\ d' = d | _, _ => False end.
Lemma Opt_refl o : Opt o o. Proof. destruct o; cbn; auto using M_refl. Qed.
Lemma Opt_trans a b c : Opt a b -> Opt b c -> Opt a c.
Proof. destruct a, b, c; cbn; try tauto; intros (A & B) (C & D); split; try congruence. eauto using M_trans. Qed.
Lemma M_optim opt lr ctx id next tmp next' opt' tmp' : optim sig opt lr ctx id next tmp = Ret (next', opt', tmp') -> Opt opt opt'.
Proof.
  destruct opt as [m k|h set d]; unfold optim; intros H; apply obind_ret in H.
  - destruct H as (((n1, m1), t1) & E & H). assert (opt' = NS m1 k) by congruence. subst. cbn. split; [|reflexivity].
    unfold ns_optim in E. destruct (k <=? -1); [assert (m1 = m) by congruence; subst; apply M_refl|]. ob E mt E0. destruct mt as (m2, t2).
    apply M_ns_negatives in E. apply M_ns_step in E0. eauto using M_trans.
  - destruct H as ((h1, t1) & E & H). assert (opt' = HS h1 set d) by congruence. subst. cbn. auto.
Qed.
Definition W (a b : wstate) : Prop := M (s_param a) (s_param b) /\ Opt (s_opt a) (s_opt b).
Lemma W_refl a : W a a. Proof. split; auto using M_refl, Opt_refl. Qed.
Lemma W_trans a b c : W a b -> W b c -> W a c. Proof. intros (A & B) (C & D). split; eauto using M_trans, Opt_trans. Qed.
Lemma W_sg_body doc pos lr c st st' : sg_body sig doc pos lr c st = Ret st' -> W st st'.
Proof.
  unfold sg_body. cbv zeta. destruct (zindex doc c) as [u|]; [|discriminate]. destruct (zindex doc pos) as [w|]; [|discriminate]. intros H.
  ob H ctx Ec. ob H q E. destruct q as ((nx, op), t). ob H c' E'.
  assert (st' = WState nx (mat_store (s_param st) u c') op (s_agg st) t) by congruence. subst. split; cbn [s_param s_opt].
  - apply (M_store _ u ctx _ Ec). eapply Rs_vadd_into; exact E'.
  - eapply M_optim; exact E.
Qed.
Lemma W_sg lr window doc pos st st' : sg_train_one sig window doc pos lr st = Ret st' -> W st st'.
Proof.
  unfold sg_train_one. destruct (next_random (s_next st) window) as (nx, q). intros H. ob H del E. unfold windowed in H.
  apply (win_loop_rel W (sg_body sig doc pos lr) (Z.of_nat (length doc)) pos window) in H; auto using W_refl; [exact W_trans|].
  intros c s s' E'. eapply W_sg_body; exact E'.
Qed.
Lemma W_dowith window doc pos fn st st' : (forall c s s', fn c s = Ret s' -> W s s') -> cb_dowith window doc pos fn st = Ret st' -> W st st'.
Proof.
  intros Hf. unfold cb_dowith. destruct (next_random (s_next st) window) as (nx, q). intros H. ob H del E. unfold windowed in H.
  apply (win_loop_rel W fn (Z.of_nat (length doc)) pos window) in H; auto using W_refl. exact W_trans.
Qed.
Lemma W_aggregate doc c st st' : cb_aggregate doc c st = Ret st' -> W st st'.
Proof.
  unfold cb_aggregate. destruct (zindex doc c) as [u|]; [|discriminate]. intros H. ob H ctx E. ob H a E'.
  assert (st' = WState (s_next st) (s_param st) (s_opt st) a (s_tmp st)) by congruence. subst. split; cbn [s_param s_opt]; auto using M_refl, Opt_refl.
Qed.
Lemma W_update doc c st st' : cb_update doc c st = Ret st' -> W st st'.
Proof.
  unfold cb_update. destruct (zindex doc c) as [u|]; [|discriminate]. intros H. ob H ctx E. ob H a E'.
  assert (st' = WState (s_next st) (mat_store (s_param st) u a) (s_opt st) (s_agg st) (s_tmp st)) by congruence. subst. split; cbn [s_param s_opt]; [|apply Opt_refl].
  apply (M_store _ u ctx _ E). eapply Rs_vadd_into; exact E'.
Qed.
Lemma W_cb lr window doc pos st st' : cb_train_one sig window doc pos lr st = Ret st' -> W st st'.
Proof.
  unfold cb_train_one. cbv zeta. intros H. ob H s1 E. apply W_dowith in E; [|intros; eapply W_aggregate; eassumption].
  destruct (zindex doc pos) as [w|]; [|discriminate H]. ob H q E1. destruct q as ((nx, op), t).
  apply W_dowith in H; [|intros; eapply W_update; eassumption]. apply M_optim in E1.
  destruct E as (A & B), H as (C & D). cbn [s_param s_opt] in *. split; eauto using M_trans, Opt_trans.
Qed.
End W.

(** ** Runs *)
Section Runs.
Context {A X : Type}.
Variables (P : X -> X -> Prop) (c : cfg) (E : effects A X).
Hypothesis Pr : forall v, P v v.
Hypothesis Pt : forall a b d, P a b -> P b d -> P a d.
Hypothesis Htrial : forall x v v' b, e_trial E x v = Ret (v', b) -> P v v'.
Hypothesis Hwork : forall d pos v v', e_work E d pos v (Ret v') -> P v v'.
Hypothesis Htick : forall n v v', e_tick E n v = Ret v' -> P v v'.

Lemma vstep_rel s v s' v' : vstep c E s v (Ret (s', v')) -> P v v'.
Proof.
  intros H. remember (Ret (s', v')) as r eqn:Er. revert Er. destruct H; intros Er.
  - assert (v' = v) by congruence. subst. apply Pr.
  - assert (v'0 = v') by congruence. subst. eapply Htrial; eassumption.
  - assert (v'0 = v') by congruence. subst. eapply Htrial; eassumption.
  - destruct r; cbn in Er; discriminate Er.
  - apply obind_ret in Er. destruct Er as (v1 & -> & Er). assert (v1 = v') by congruence. subst. eapply Hwork; eassumption.
  - apply obind_ret in Er. destruct Er as (v2 & -> & Er). assert (v2 = v') by congruence. subst. eauto.
  - apply obind_ret in Er. destruct Er as (v1 & -> & Er). assert (v1 = v') by congruence. subst. eauto.
Qed.
Lemma vruns_rel iter mk n l v l' v' : vruns c E iter mk n l v l' v' -> P v v'.
Proof.
  induction 1 as [|n l0 v0 l v l' v' H IH HS]; [apply Pr|]. apply (Pt _ v); [exact IH|].
  remember (Ret (l', v')) as r eqn:Er. revert Er. destruct HS as [l1 s l2 v r Hv|l s v Hm Hl]; intros Er.
  - apply obind_ret in Er. destruct Er as ((s', v1) & -> & Er). assert (v1 = v') by congruence. subst. eapply vstep_rel; exact Hv.
  - assert (v' = v) by congruence. subst. apply Pr.
Qed.
End Runs.

Lemma Rs_nth l l' : Rs l l' -> forall i x, nth_error l i = Some x -> exists y, nth_error l' i = Some y /\ R x y.
Proof.
  induction 1 as [|a b l l' Ha H IH]; intros [|i] x E; try discriminate E; cbn in *; [|auto].
  assert (a = x) by congruence. subst. eauto.
Qed.
Lemma M_lasting m m' : M m m' -> lasting m m'.
Proof.
  intros (A & B & C). split; [exact A|]. split; [exact B|]. split; [symmetry; exact (Rs_len _ _ C)|].
  intros i x Hi Hx. destruct (Rs_nth _ _ C i x Hi) as (y & Ey & R1 & R2). exists y. auto.
Qed.

(** ** NaN spreads *)
Notation nan x := (isnan x = true).
Lemma nan_is (x : f64) : nan x -> x = fnan. Proof. destruct x; try discriminate; reflexivity. Qed.
Lemma nan_add_l x y : nan x -> nan (fadd x y). Proof. intros H. rewrite (nan_is x H). reflexivity. Qed.
Lemma nan_add_r x y : nan y -> nan (fadd x y). Proof. intros H. rewrite (nan_is y H). destruct x; reflexivity. Qed.
Lemma nan_sub_l x y : nan x -> nan (fsub x y). Proof. intros H. rewrite (nan_is x H). reflexivity. Qed.
Lemma nan_sub_r x y : nan y -> nan (fsub x y). Proof. intros H. rewrite (nan_is y H). destruct x; reflexivity. Qed.
Lemma nan_mul_l x y : nan x -> nan (fmul x y). Proof. intros H. rewrite (nan_is x H). reflexivity. Qed.
Lemma nan_mul_r x y : nan y -> nan (fmul x y). Proof. intros H. rewrite (nan_is y H). destruct x; reflexivity. Qed.
Lemma nan_div_l x y : nan x -> nan (fdiv x y). Proof. intros H. rewrite (nan_is x H). reflexivity. Qed.

Lemma fold_nan l : forall acc, nan acc -> nan (fold_left (fun acc p => fadd acc (fmul (fst p) (snd p))) l acc).
Proof. induction l as [|p l IH]; intros acc H; [exact H|]. cbn [fold_left]. apply IH, nan_add_l, H. Qed.
Lemma fold_nan_in l p : In p l -> nan (fst p) \/ nan (snd p) -> forall acc, nan (fold_left (fun acc p => fadd acc (fmul (fst p) (snd p))) l acc).
Proof.
  intros Hi Hp. induction l as [|q l IH]; [destruct Hi|]. intros acc. cbn [fold_left]. destruct Hi as [->|Hi]; [|apply IH, Hi].
  apply fold_nan, nan_add_r. destruct Hp; [now apply nan_mul_l|now apply nan_mul_r].
Qed.
Lemma in_combine_ex {A} (x y : list A) : length x = length y -> (forall a, In a x -> exists b, In (a, b) (combine x y)) /\ (forall b, In b y -> exists a, In (a, b) (combine x y)).
Proof.
  revert y. induction x as [|a x IH]; intros [|b y] H; try discriminate H; cbn; [split; intros ? []|].
  destruct (IH y ltac:(cbn in H; congruence)) as (A1 & A2). split; intros c [->|Hc]; eauto; [destruct (A1 c Hc)|destruct (A2 c Hc)]; eauto.
Qed.
Lemma dot_nan x y : length x = length y -> some_nan x \/ some_nan y -> nan (dot x y).
Proof.
  intros HL H. destruct (in_combine_ex x y HL) as (A1 & A2). unfold dot. destruct H as [(a & Ha & Na)|(b & Hb & Nb)].
  - destruct (A1 a Ha) as (b & Hab). apply (fold_nan_in _ (a, b) Hab). cbn; auto.
  - destruct (A2 b Hb) as (a & Hab). apply (fold_nan_in _ (a, b) Hab). cbn; auto.
Qed.
Lemma zipw_all g x y : (forall a b, In b y -> nan (g a b)) -> all_nan (zipw g x y).
Proof.
  intros H. apply Forall_forall. intros z Hz. unfold zipw in Hz. apply in_map_iff in Hz. destruct Hz as ((a, b) & <- & Hab).
  apply H. apply in_combine_r in Hab. exact Hab.
Qed.
Lemma some_vec_bias r n : length r = S n -> some_nan r -> some_nan (vec r) \/ nan (bias r).
Proof.
  intros HL (x & Hx & Nx). rewrite (app_removelast_last fzero (l := r)) in Hx by (destruct r; discriminate).
  apply in_app_or in Hx. destruct Hx as [Hx|[<-|[]]]; [left; exists x; auto|right; exact Nx].
Qed.
Lemma glove_diff_nan lr f coef r1 r2 n : length r1 = S n -> length r2 = S n -> some_nan r1 \/ some_nan r2 -> nan (glove_diff lr f coef r1 r2).
Proof.
  intros H1 H2 H. unfold glove_diff. apply nan_mul_l.
  assert (HL : length (vec r1) = length (vec r2)) by now rewrite !(Cells.vec_length _ n).
  assert (K : (some_nan (vec r1) \/ some_nan (vec r2)) \/ (nan (bias r1) \/ nan (bias r2))).
  { destruct H as [H|H]; [destruct (some_vec_bias r1 n H1 H)|destruct (some_vec_bias r2 n H2 H)]; tauto. }
  destruct K as [K|[K|K]].
  - apply nan_add_l, dot_nan; auto.
  - apply nan_add_r, nan_sub_l, nan_add_l, K.
  - apply nan_add_r, nan_sub_l, nan_add_r, K.
Qed.
Lemma step_row_nan d x y : nan d -> all_nan (step_row d x y).
Proof. intros H. apply zipw_all. intros a b _. apply nan_sub_r, nan_mul_l, H. Qed.
Lemma self_row_nan d x : nan d -> all_nan (self_row d x).
Proof. intros H. apply Forall_forall. intros z Hz. apply in_map_iff in Hz. destruct Hz as (a & <- & _). apply nan_sub_r, nan_mul_l, H. Qed.
Lemma sgd_row_nan d x y : nan d -> all_nan (sgd_row d x y).
Proof. intros H. apply Forall_app. split; [apply step_row_nan, H|]. constructor; [apply nan_sub_r, H|constructor]. Qed.
Lemma ada_row_nan d x y g : nan d -> all_nan (ada_row d x y g).
Proof.
  intros H. apply Forall_app. split; [|constructor; [apply nan_sub_r, nan_div_l, H|constructor]].
  apply zipw_all. intros a b Hb. apply nan_sub_r. revert Hb. revert b. apply Forall_forall. apply Forall_forall. intros z Hz.
  unfold zipw in Hz. apply in_map_iff in Hz. destruct Hz as ((b, q) & <- & _). apply nan_div_l, nan_mul_l, H.
Qed.

(** ** word2vec stops *)
Lemma vdot_nan acc x y r : vdot acc x y = Ret r -> nan acc \/ some_nan y -> nan r.
Proof.
  revert acc x. induction y as [|b y IH]; intros acc [|a x] H K; cbn [vdot] in H; try discriminate H.
  1-2: assert (r = acc) by congruence; subst; destruct K as [K|(z & [] & _)]; exact K.
  - apply (IH _ _ H). destruct K as [K|(z & [->|Hz] & Nz)].
    + left. apply nan_add_l, K.
    + left. apply nan_add_r, nan_mul_r, Nz.
    + right. exists z. auto.
Qed.
Section Stops.
Variable exp : f64 -> f64.
Notation sig := (sigmoid (sig_table exp)).
Lemma ns_step_stops lr ctx label p m tmp r : some_nan ctx -> ns_step sig lr ctx label p m tmp <> Ret r.
Proof.
  intros HN H. unfold ns_step in H. ob H row E. ob H inner Ei. ob H g Eg.
  pose proof (nan_is _ (vdot_nan _ _ _ _ Ei (or_intror HN))) as N. rewrite N in Eg.
  unfold ns_grad in Eg. rewrite minus6 in Eg. unfold max_exp in Eg. destruct (Sigmoid.sigmoid_nan_lemma exp) as (A & B & C). rewrite A, B, C in Eg. discriminate Eg.
Qed.
Lemma ns_optim_stops k lr ctx id next m tmp r : 0 <= k -> some_nan ctx -> ns_optim sig k lr ctx id next m tmp <> Ret r.
Proof.
  intros Hk HN H. unfold ns_optim in H. destruct (Z.leb_spec k (-1)); [lia|]. ob H q E. exact (ns_step_stops _ _ _ _ _ _ _ HN E).
Qed.
Lemma optim_stops m k lr ctx id next tmp r : 0 <= k -> some_nan ctx -> optim sig (NS m k) lr ctx id next tmp <> Ret r.
Proof. intros Hk HN H. unfold optim in H. ob H q E. exact (ns_optim_stops _ _ _ _ _ _ _ _ Hk HN E). Qed.
End Stops.

Lemma Rs_some_nan a b : Rs a b -> some_nan a -> some_nan b.
Proof.
  intros H (x & Hx & Nx). apply In_nth_error in Hx. destruct Hx as (i & Hi). destruct (Rs_nth _ _ H i x Hi) as (y & Hy & _ & HN).
  exists y. split; [eapply nth_error_In; exact Hy|auto].
Qed.
Lemma Rs_firstn n a b : Rs a b -> Rs (firstn n a) (firstn n b).
Proof. intros H. revert n. induction H as [|x y a b Hx H IH]; intros [|n]; cbn; constructor; auto; exact (IH n). Qed.
Lemma Rs_skipn n a b : Rs a b -> Rs (skipn n a) (skipn n b).
Proof. intros H. revert n. induction H as [|x y a b Hx H IH]; intros [|n]; cbn; try (exact (IH n)); constructor; auto. Qed.
Lemma M_slice m m' i r : M m m' -> mat_slice m i = Ret r -> exists r', mat_slice m' i = Ret r' /\ Rs r r'.
Proof.
  intros (A & B & C). unfold mat_slice, start_index. rewrite B, <- (Rs_len _ _ C). destruct (slice_ok _ _ _); [|discriminate].
  intros H. assert (r = firstn (Z.to_nat (m_col m)) (skipn (Z.to_nat (i * m_col m)) (m_array m))) by congruence. subst. eexists. split; [reflexivity|].
  apply Rs_firstn, Rs_skipn, C.
Qed.

(** In a sequence of steps, one that stops in every later state. *)
Lemma ofold_stops {A St} (P : St -> St -> Prop) (f : A -> St -> outcome St) l x s0 s' :
  (forall s, P s s) -> (forall a b c, P a b -> P b c -> P a c) -> (forall c s s', f c s = Ret s' -> P s s') ->
  In x l -> (forall s, P s0 s -> forall s'', f x s <> Ret s'') -> ofold f l s0 <> Ret s'.
Proof.
  intros Hr Ht Hb. revert s0. induction l as [|y l IH]; intros s0 Hi Hx H; [destruct Hi|]. cbn [ofold] in H. ob H s1 E. destruct Hi as [->|Hi].
  - exact (Hx s0 (Hr s0) s1 E).
  - apply (IH s1 Hi); [|exact H]. intros s Hs. apply Hx. apply (Ht _ s1); [|exact Hs]. eapply Hb; exact E.
Qed.
Lemma vacc_all (g : f64 -> f64 -> f64) : (forall d s : f64, nan d \/ nan s -> nan (g d s)) -> forall dst src out, vacc g dst src = Ret out -> some_nan src -> some_nan out.
Proof.
  intros Hg. induction dst as [|d dst IH]; intros [|s src] out E (z & Hz & Nz); cbn [vacc] in E; try discriminate E; try destruct Hz as [].
  - subst s. apply obind_ret in E. destruct E as (l & El & E). assert (out = g d z :: l) by congruence. subst. exists (g d z). split; [now left|]. apply Hg. auto.
  - apply obind_ret in E. destruct E as (l & El & E). assert (out = g d s :: l) by congruence. subst.
    destruct (IH src l El) as (y & Hy & Ny); [exists z; auto|]. exists y. split; [now right|exact Ny].
Qed.

Section Stops2.
Variable exp : f64 -> f64.
Notation sig := (sigmoid (sig_table exp)).
Variables (window : Z) (doc : list Z) (pos : Z) (lr : f64).
Hypothesis HW : 1 <= window < 2 ^ 63.

Lemma sg_stops st m k c u row st' : s_opt st = NS m k -> 0 <= k ->
  In c (context pos (window - lcg (s_next st) mod window) (length doc)) -> zindex doc c = Some u -> mat_slice (s_param st) u = Ret row -> some_nan row ->
  sg_train_one sig window doc pos lr st <> Ret st'.
Proof.
  intros Eo Hk Hc Eu Er HN. unfold sg_train_one. destruct (draw_next (s_next st) window HW) as (Ed & Ld). rewrite Ed. cbn [obind].
  assert (Ew : Z.of_nat (draw (s_next st) window 0) = lcg (s_next st) mod window). { unfold draw. cbn [Nat.iter]. rewrite Z2Nat.id; [reflexivity|]. apply Z.mod_pos_bound. lia. }
  rewrite Window.windowed_context by lia. rewrite Ew.
  set (s0 := WState _ _ _ _ _).
  apply (ofold_stops W (sg_body sig doc pos lr) _ c); auto using W_refl.
  - apply W_trans.
  - intros c' s s'. apply W_sg_body.
  - intros s (HM & HO) s'' H. unfold sg_body in H. cbv zeta in H. rewrite Eu in H. destruct (zindex doc pos) as [w|]; [|discriminate H].
    unfold s0 in HM, HO. cbn [s_param s_opt] in HM, HO. destruct (M_slice _ _ _ _ HM Er) as (row' & Er' & HR). rewrite Er' in H. cbn [obind] in H.
    rewrite Eo in HO. destruct (s_opt s) as [m' k'|]; [|destruct HO]. destruct HO as (_ & ->). ob H q E. revert E. apply optim_stops; [exact Hk|]. eapply Rs_some_nan; eassumption.
Qed.

Lemma agg_nan : forall l s s', ofold (cb_aggregate doc) l s = Ret s' -> s_param s' = s_param s /\ s_opt s' = s_opt s /\ Rs (s_agg s) (s_agg s') /\
  (forall c u row, In c l -> zindex doc c = Some u -> mat_slice (s_param s) u = Ret row -> some_nan row -> some_nan (s_agg s')).
Proof.
  induction l as [|c l IH]; intros s s' H; cbn [ofold] in H.
  - assert (s' = s) by congruence. subst. repeat split; auto using Rs_refl. intros ? ? ? [].
  - ob H s1 E. destruct (IH _ _ H) as (A & B & C & D). unfold cb_aggregate in E. destruct (zindex doc c) as [u0|] eqn:E0; [|discriminate E].
    ob E ctx Ec. ob E a Ea. assert (s1 = WState (s_next s) (s_param s) (s_opt s) a (s_tmp s)) by congruence. subst s1. cbn [s_param s_opt s_agg] in *.
    assert (Ra : Rs (s_agg s) a) by (eapply Rs_vacc; [|exact Ea]; intros; apply R_add).
    repeat split; auto; [eapply Rs_trans; eassumption|]. intros c' u row [->|Hc] Eu Er HN; [|eauto].
    assert (u0 = u) by congruence. subst. assert (ctx = row) by congruence. subst. eapply Rs_some_nan; [exact C|].
    eapply vacc_all; [|exact Ea|exact HN]. intros d x [Hd|Hx]; [now apply nan_add_l|now apply nan_add_r].
Qed.

Lemma cb_stops st m k c u row st' : s_opt st = NS m k -> 0 <= k ->
  In c (context pos (window - lcg (s_next st) mod window) (length doc)) -> zindex doc c = Some u -> mat_slice (s_param st) u = Ret row -> some_nan row ->
  cb_train_one sig window doc pos lr st <> Ret st'.
Proof.
  intros Eo Hk Hc Eu Er HN H. unfold cb_train_one in H. cbv zeta in H. ob H s1 E. unfold cb_dowith in E. cbn [s_next s_param s_opt s_agg s_tmp] in E.
  destruct (draw_next (s_next st) window HW) as (Ed & Ld). rewrite Ed in E. cbn [obind] in E.
  assert (Ew : Z.of_nat (draw (s_next st) window 0) = lcg (s_next st) mod window). { unfold draw. cbn [Nat.iter]. rewrite Z2Nat.id; [reflexivity|]. apply Z.mod_pos_bound. lia. }
  rewrite Window.windowed_context in E by lia. rewrite Ew in E. apply agg_nan in E. destruct E as (A & B & _ & D). cbn [s_param s_opt] in *.
  destruct (zindex doc pos) as [w|]; [|discriminate H]. ob H q E1. revert E1. rewrite B, Eo. apply optim_stops; [exact Hk|]. eauto.
Qed.
End Stops2.

(** ** Whole pairs of rows *)
Lemma upd2_nth {A} (rows : list A) r1 r2 x y d : r1 <> r2 -> (r1 < length rows)%nat -> (r2 < length rows)%nat ->
  nth r1 (upd2 rows r1 r2 x y) d = x /\ nth r2 (upd2 rows r1 r2 x y) d = y.
Proof.
  intros N L1 L2. unfold upd2. rewrite !nth_upd, !upd_length.
  destruct (Nat.eqb_spec r1 r2); [lia|]. destruct (Nat.eqb_spec r2 r1); [lia|]. rewrite !Nat.eqb_refl. destruct (Nat.ltb_spec r1 (length rows)); [|lia]. destruct (Nat.ltb_spec r2 (length rows)); [|lia].
  cbn. auto.
Qed.
Lemma sgd_spreads dim rows r1 r2 lr f coef : r1 <> r2 -> all_len (S dim) rows -> (r1 < length rows)%nat -> (r2 < length rows)%nat ->
  some_nan (nth r1 rows []) \/ some_nan (nth r2 rows []) ->
  exists rows', sgd_train_one lr (Z.of_nat r1) (Z.of_nat r2) f coef (of_rows (S dim) rows) = Ret (of_rows (S dim) rows') /\
    all_len (S dim) rows' /\ length rows' = length rows /\ all_nan (nth r1 rows' []) /\ all_nan (nth r2 rows' []).
Proof.
  intros Hne A L1 L2 HN. rewrite Glove.sgd_lemma by auto.
  set (x := nth r1 rows []). set (y := nth r2 rows []). fold x y in HN.
  assert (Lx : length x = S dim) by now apply all_len_nth. assert (Ly : length y = S dim) by now apply all_len_nth.
  pose proof (glove_diff_nan lr f coef x y dim Lx Ly HN) as ND. set (d := glove_diff lr f coef x y) in *. clearbody d.
  eexists. split; [reflexivity|]. destruct (Cells.upd2_ok (S dim) rows r1 r2 (sgd_row d x y) (sgd_row d y x) A (Cells.sgd_row_length d x y dim Lx Ly) (Cells.sgd_row_length d y x dim Ly Lx)) as (A' & L').
  split; [exact A'|]. split; [exact L'|]. destruct (upd2_nth rows r1 r2 (sgd_row d x y) (sgd_row d y x) [] Hne L1 L2) as (-> & ->). split; apply sgd_row_nan, ND.
Qed.
Lemma ada_spreads dim rows gs r1 r2 lr f coef : r1 <> r2 -> all_len (S dim) rows -> (r1 < length rows)%nat -> (r2 < length rows)%nat ->
  all_len (S dim) gs -> length gs = length rows ->
  some_nan (nth r1 rows []) \/ some_nan (nth r2 rows []) ->
  exists rows' gs', ada_train_one lr (Z.of_nat r1) (Z.of_nat r2) f coef (of_rows (S dim) rows, of_rows (S dim) gs) = Ret (of_rows (S dim) rows', of_rows (S dim) gs') /\
    all_len (S dim) rows' /\ length rows' = length rows /\ all_len (S dim) gs' /\ length gs' = length rows /\ all_nan (nth r1 rows' []) /\ all_nan (nth r2 rows' []).
Proof.
  intros Hne A L1 L2 Ag Lg HN. rewrite Glove.ada_lemma by auto.
  set (x := nth r1 rows []). set (y := nth r2 rows []). fold x y in HN. set (g := nth r1 gs []). set (h := nth r2 gs []).
  assert (Lx : length x = S dim) by now apply all_len_nth. assert (Ly : length y = S dim) by now apply all_len_nth.
  assert (Lgx : length g = S dim) by (apply all_len_nth; auto; lia). assert (Lh : length h = S dim) by (apply all_len_nth; auto; lia).
  pose proof (glove_diff_nan lr f coef x y dim Lx Ly HN) as ND. set (d := glove_diff lr f coef x y) in *. clearbody d.
  eexists. eexists. split; [reflexivity|].
  destruct (Cells.upd2_ok (S dim) rows r1 r2 (ada_row d x y g) (ada_row d y x h) A (Glove.ada_row_length dim d x y g Lx Ly Lgx) (Glove.ada_row_length dim d y x h Ly Lx Lh)) as (A' & L').
  destruct (Cells.upd2_ok (S dim) gs r1 r2 (ada_acc d g y) (ada_acc d h x) Ag (Glove.ada_acc_length dim d g y Lgx Ly) (Glove.ada_acc_length dim d h x Lh Lx)) as (Ag' & Lg').
  split; [exact A'|]. split; [exact L'|]. split; [exact Ag'|]. split; [congruence|]. destruct (upd2_nth rows r1 r2 (ada_row d x y g) (ada_row d y x h) [] Hne L1 L2) as (-> & ->). split; apply ada_row_nan, ND.
Qed.
Lemma lex_spreads dim rows a b lr f : all_len dim rows -> (a < length rows)%nat -> (b < length rows)%nat ->
  some_nan (nth a rows []) \/ some_nan (nth b rows []) ->
  exists rows', lex_update (Z.of_nat dim) lr (Z.of_nat a) (Z.of_nat b) f (of_rows dim rows) = Ret (of_rows dim rows') /\
    all_len dim rows' /\ length rows' = length rows /\ all_nan (nth a rows' []) /\ all_nan (nth b rows' []).
Proof.
  intros A L1 L2 HN. rewrite Lexvec.update_lemma by auto. unfold lex_step. cbv zeta.
  set (x := nth a rows []). set (y := nth b rows []). fold x y in HN.
  assert (Lx : length x = dim) by now apply all_len_nth. assert (Ly : length y = dim) by now apply all_len_nth.
  assert (ND : nan (fmul (fsub (dot x y) f) lr)) by (apply nan_mul_l, nan_sub_l, dot_nan; [congruence|exact HN]).
  set (d := fmul (fsub (dot x y) f) lr) in *. clearbody d. eexists. split; [reflexivity|]. destruct (Nat.eqb_spec a b) as [->|N].
  - assert (Ls : length (self_row d x) = dim) by (unfold self_row; now rewrite map_length).
    split; [apply all_len_upd; auto|]. rewrite upd_length. split; [reflexivity|]. rewrite nth_upd, Nat.eqb_refl. destruct (Nat.ltb_spec b (length rows)); [|lia].
    cbn. split; apply self_row_nan, ND.
  - destruct (Cells.upd2_ok dim rows a b (step_row d x y) (step_row d y x) A ltac:(rewrite Cells.step_row_length; congruence) ltac:(rewrite Cells.step_row_length; congruence)) as (A' & L').
    split; [exact A'|]. split; [exact L'|]. destruct (upd2_nth rows a b (step_row d x y) (step_row d y x) [] N L1 L2) as (-> & ->). split; apply step_row_nan, ND.
Qed.
