From Coq Require Import Permutation Reals Lra Lia.
From Flocq Require Import Core.
From Verif.Lib Require Import Go F64 F64Facts ListFacts Tac.
From Verif.Model Require Import Dictionary Reader Corpus ModelUtil Matrix Cells Encode Cooc Glove Options Train Sched Run.
From Verif.Spec Require Import Slices Sched Rows Training Cells Readable Words Runs Interleave Touches.
From Verif.Proofs Require Import Sched Run RunModels RunGlove RunOne Linear Unlinear AdaGrad AdaStep Cells Matrix Word2vec TrainProps.
Local Open Scope Z_scope.

Section Glv.
Variables (lower : gostring -> gostring) (rand : nat -> f64) (flog : f64 -> f64) (fpow : f64 -> f64 -> f64)
  (order : list (Z * f64) -> list (Z * f64)) (o : glv_opts) (doc : reader) (all : list gostring) (g0 : glv) (x : source item).
Hypothesis HU : glv_usable lower o doc all.
Hypothesis HP : forall m, Permutation (order m) m.
Hypothesis HS : glv_setup lower rand flog fpow order o doc = Ret g0.
Hypothesis Hx : glv_source o g0 = Ret x.
Let V := dict_len (gl_dic g0).
Let f := glove_train_item (glv_Initlr o) (Z.of_nat V).

Lemma glv_interleavings g : glv_trained lower rand flog fpow order o doc g <->
  exists ps m sol, length ps = Z.to_nat (glv_Iter o) /\ Forall (interleaves (parts x)) ps /\
    ofold f (concat (map (map snd) ps)) (gl_param g0, gl_solver g0) = Ret (m, sol) /\ g = Glv (gl_dic g0) m sol (gl_items g0).
Proof.
  destruct (glv_chunks lower rand flog fpow order o doc all HU HP g0 HS x Hx) as (Sx & Cx & Lx & _).
  set (E := glv_effects o (Z.of_nat V)).
  assert (T1 : forall y v, e_trial E y v = Ret (v, true)) by reflexivity.
  assert (T2 : forall n v, e_tick E n v = Ret v) by (intros; apply (gl_tick_ok lower o doc all HU)).
  assert (HM : exists r, x = Mem r).
  { unfold glv_source in Hx. destruct (index_per_thread _ _); try discriminate. cbn [obind] in Hx. injection Hx as <-. eauto. }
  split.
  - intros (g1 & x1 & m & sol & H1 & H2 & H3 & ->). rewrite HS in H1. injection H1 as <-. rewrite Hx in H2. injection H2 as <-.
    destruct (trains_linear (glv_cfg o) E f T1) with (iter := Z.to_nat (glv_Iter o)) (x := x) (v0 := (gl_param g0, gl_solver g0)) (v := (m, sol))
      as (ps & L & F & O); auto.
    + intros d pos y v r Hy Hw. cbn [E glv_effects e_work] in Hw. rewrite Hy in Hw. exact Hw.
    + exists ps, m, sol. auto.
  - intros (ps & m & sol & L & F & O & ->). exists g0, x, m, sol. split; [exact HS|]. split; [exact Hx|]. split; [|reflexivity].
    destruct HM as (r & ->). cbn [parts pending] in *.
    apply (interleaved_trains (glv_cfg o) E f r eq_refl T1) with (ps := ps); auto.
    + intros d pos y v Hy. cbn [E glv_effects e_work]. rewrite Hy. reflexivity.
    + cbn [glv_cfg c_g]. lia.
Qed.

Lemma glv_adagrad_start : glv_SolverType o = "adagrad"%string -> exists g, new_adagrad (Z.of_nat V) (glv_Dim o) = Ret g /\ gl_solver g0 = AdaGrad g.
Proof.
  intros HT. unfold glv_setup in HS. destruct (load_corpus _ _ _ _ _ _ _ _ _) as [c| |]; try discriminate. cbn [obind] in HS.
  destruct (mat_new _ _ _ _) as [[k param]| |]; try discriminate. cbn [obind] in HS. rewrite HT in HS.
  change (String.eqb "adagrad" sgd_type) with false in HS. change (String.eqb "adagrad" adagrad_type) with true in HS. cbv iota in HS.
  destruct (new_adagrad (Z.of_nat (dict_len (c_dic c))) (glv_Dim o)) as [g| |] eqn:Eg; try discriminate. cbn [obind] in HS.
  destruct (c_cooc c) as [co|]; try discriminate. destruct (make_items _ _ _ _ _ _ _) as [items| |]; try discriminate. cbn [obind] in HS.
  injection HS as HS'. unfold V. rewrite <- HS'. cbn [gl_dic gl_solver]. eauto.
Qed.

Lemma glv_adagrad_bound g : (forall k, is_fin (rand k) = true /\ (0 <= f2r (rand k) < 1)%R) -> glv_SolverType o = "adagrad"%string -> 1 <= glv_Dim o <= 2 ^ 53 ->
  (forall r, 1 + Z.of_nat (Z.to_nat (glv_Iter o) * touches V (gl_items g0) r) <= 2 ^ 53) ->
  glv_trained lower rand flog fpow order o doc g ->
  exists rows, gl_param g = of_rows (S (Z.to_nat (glv_Dim o))) rows /\ all_len (S (Z.to_nat (glv_Dim o))) rows /\ length rows = (2 * V)%nat /\
    cells_within (Z.to_nat (glv_Dim o)) rows (fun q => 1 + Z.of_nat (Z.to_nat (glv_Iter o) * touches V (gl_items g0) q)).
Proof.
  intros HR HT HD HB Hg. apply glv_interleavings in Hg. destruct Hg as (ps & m & sol & L & F & O & ->). cbn [gl_param].
  destruct (glv_chunks lower rand flog fpow order o doc all HU HP g0 HS x Hx) as (Sx & Cx & Lx & _). change (pending x) with (parts x) in Cx.
  destruct (glv_ready_g0 lower rand flog fpow order o doc all HU HP g0 HS) as (rows & Ed & Em & A & LR & _ & HI & _).
  set (dim := Z.to_nat (glv_Dim o)) in *.
  set (V' := length (distinct (used_words lower (glv_ToLower o) all))) in *.
  assert (EV : V = V') by (unfold V; rewrite Ed; apply dict_len_distinct). rewrite <- EV in *.
  destruct (glv_adagrad_start HT) as (gm & Eg & Es).
  destruct (mat_ones V dim) as (gs & Eg' & Ag & Lg & Og).
  replace (Z.of_nat dim) with (glv_Dim o) in Eg' by (unfold dim; lia). rewrite Eg in Eg'. injection Eg' as ->.
  assert (TP : forall q, touches V (concat (map (map snd) ps)) q = (Z.to_nat (glv_Iter o) * touches V (gl_items g0) q)%nat).
  { intros q. rewrite (touches_passes V (gl_items g0)).
    - rewrite map_length, L. reflexivity.
    - apply Forall_forall. intros p Hp. apply in_map_iff in Hp. destruct Hp as (p0 & <- & Hp0). rewrite Forall_forall in F.
      rewrite <- Cx. apply interleaves_perm. apply F. exact Hp0. }
  assert (HI2 : Forall (item_in V) (concat (map (map snd) ps))).
  { apply Forall_forall. intros it Hit. apply in_concat in Hit. destruct Hit as (p & Hp & Hit). apply in_map_iff in Hp. destruct Hp as (p0 & <- & Hp0).
    rewrite Forall_forall in F, HI. apply HI. rewrite <- Cx. eapply Permutation_in; [apply interleaves_perm; apply F; exact Hp0|exact Hit]. }
  rewrite Em, Es in O.
  destruct (items_within (glv_Initlr o) dim V 1 ltac:(lia) (concat (map (map snd) ps)) rows gs (fun _ => 0%nat) HI2 A LR Ag Lg) as (rows' & gs' & O' & A' & L' & W).
  - intros q j Hq Hj. rewrite Og by lia. right. apply fge_spec. destruct one_val as (V1 & F1).
    split; [apply fin_not_nan, F1|]. split; [apply fin_not_nan, F1|]. lra.
  - intros q j Hq Hj. right. destruct g0 as [gd gp gsol gi]. cbn [gl_param gl_dic gl_solver gl_items] in *.
    pose proof (glv_initial lower rand flog fpow order o doc gd gp gsol gi HR HD HS) as G0. rewrite Forall_forall in G0.
    assert (IN : In (at2 rows q j) (m_array gp)).
    { rewrite Em. cbn [of_rows m_array]. apply in_concat. exists (nth q rows []). split; [apply nth_In; exact Hq|]. apply nth_In.
      rewrite (all_len_nth (S dim)) by auto. lia. }
    destruct (G0 _ IN) as (P1 & P2). apply fle_spec in P1. apply fle_spec in P2. destruct P1 as (_ & N1 & K1). destruct P2 as (_ & N2 & K2).
    destruct (f_of_Z_exact 1) as (V1 & F1); [lia|]. destruct (f_of_Z_exact (glv_Dim o)) as (VD & FD); [lia|].
    assert (D1 : (1 <= IZR (glv_Dim o))%R) by (apply IZR_le; lia).
    assert (Q : (Rabs (f2r (f_of_Z 1) / f2r (f_of_Z (glv_Dim o))) <= 1)%R).
    { rewrite V1, VD, Cosine.Rabs_div_pos, Rabs_R1 by lra. apply Rmult_le_reg_r with (IZR (glv_Dim o)); [lra|]. unfold Rdiv. rewrite Rmult_assoc, Rinv_l by lra. lra. }
    destruct (fdiv_fin (f_of_Z 1) (f_of_Z (glv_Dim o)) F1 ltac:(lra)) as (E1 & F2).
    { apply (rnd_small _ (f_of_Z 1)). rewrite V1 at 2. exact Q. }
    rewrite (fkey_fin (fdiv _ _)) in K2 by exact F2.
    assert (K3 : (f2r (fdiv (f_of_Z 1) (f_of_Z (glv_Dim o))) <= 1)%R).
    { rewrite E1, <- V1 at 1. rewrite V1. rewrite <- V1 at 2. apply rnd_le_f. rewrite V1. apply Rabs_le_inv in Q. rewrite V1 in Q. lra. }
    set (b := fdiv _ _) in *. clearbody b.
    change (fkey fzero) with 0%R in K1.
    assert (Fa : is_fin (at2 rows q j) = true).
    { destruct (is_fin (at2 rows q j)) eqn:Fa; [reflexivity|]. exfalso. pose proof F64MAX_pos as MP.
      destruct (at2 rows q j) as [s|[]| |s mm e H]; try discriminate; cbn [fkey] in *; try lra. pose proof (f2r_bound b) as B. apply Rabs_lt_inv in B. lra. }
    rewrite fkey_fin in K1, K2 by exact Fa. split; [exact Fa|]. rewrite Rabs_pos_eq by exact K1. change (IZR (1 + Z.of_nat 0)) with 1%R. lra.
  - intros q. rewrite TP, Nat.add_0_l. apply HB.
  - unfold f in O. rewrite O' in O. injection O as <- <-. exists rows'. split; [reflexivity|]. split; [exact A'|]. split; [exact L'|].
    intros q j Hq Hj. specialize (W q j Hq Hj). cbv beta in W. rewrite TP, Nat.add_0_l in W. exact W.
Qed.
End Glv.
