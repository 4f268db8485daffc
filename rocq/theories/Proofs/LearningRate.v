From Coq Require Import Reals Lra.
From Flocq Require Import Core BinarySingleNaN.
From Verif.Lib Require Import Go F64 F64Facts Tac.
From Verif.Model Require Import LearningRate.
Local Open Scope R_scope.

Definition opts_ok (o : lr_opts) : Prop :=
  is_fin (lo_init o) = true /\ 0 <= f2r (lo_init o) /\
  is_fin (lo_min o) = true /\ 0 <= f2r (lo_min o) /\ (1 <= lo_len o <= 2 ^ 53)%Z.

Lemma one_fin : is_fin (f_of_Z 1) = true /\ f2r (f_of_Z 1) = 1.
Proof. destruct (f_of_Z_exact 1) as (A & B); [lia|]. auto. Qed.

Definition frac (o : lr_opts) (cnt : Z) : R := rnd (IZR cnt / IZR (lo_len o)).

Lemma frac_ok o cnt : opts_ok o -> (1 <= cnt <= lo_len o)%Z -> 0 <= frac o cnt <= 1.
Proof.
  intros (_ & _ & _ & _ & HL) Hc. destruct one_fin as (_ & E1).
  assert (0 < IZR (lo_len o)) by (apply IZR_lt; lia).
  assert (0 <= IZR cnt / IZR (lo_len o) <= 1).
  { split.
    - apply Rmult_le_pos; [apply IZR_le; lia|apply Rlt_le, Rinv_0_lt_compat; auto].
    - apply Rmult_le_reg_r with (IZR (lo_len o)); [auto|]. unfold Rdiv. rewrite Rmult_assoc, Rinv_l, Rmult_1_r, Rmult_1_l by lra.
      apply IZR_le. lia. }
  unfold frac. split.
  - rewrite <- fzero_r. apply rnd_ge_f. rewrite fzero_r. lra.
  - rewrite <- E1. apply rnd_le_f. rewrite E1. lra.
Qed.

Lemma formula_ok o cnt : opts_ok o -> (1 <= cnt <= lo_len o)%Z ->
  is_fin (lr_formula o cnt) = true /\
  f2r (lr_formula o cnt) = rnd (f2r (lo_init o) * rnd (1 - frac o cnt)) /\
  0 <= f2r (lr_formula o cnt) <= f2r (lo_init o).
Proof.
  intros Ho Hc. pose proof (frac_ok o cnt Ho Hc) as HF. destruct Ho as (F1 & P1 & F2 & P2 & HL).
  destruct one_fin as (O1 & O2).
  destruct (f_of_Z_exact cnt) as (Ec & Fc); [lia|]. destruct (f_of_Z_exact (lo_len o)) as (El & Fl); [lia|].
  destruct (fdiv_fin (f_of_Z cnt) (f_of_Z (lo_len o)) Fc) as (Ed & Fd).
  { rewrite El. apply IZR_neq. lia. }
  { rewrite Ec, El. fold (frac o cnt). rewrite Rabs_pos_eq by lra.
    apply Rle_lt_trans with 1; [lra|]. pose proof (f2r_bound (f_of_Z 1)) as Hb. rewrite O2, Rabs_pos_eq in Hb by lra. exact Hb. }
  rewrite Ec, El in Ed. fold (frac o cnt) in Ed.
  assert (R1 : 0 <= rnd (1 - frac o cnt) <= 1).
  { split.
    - rewrite <- fzero_r. apply rnd_ge_f. rewrite fzero_r. lra.
    - rewrite <- O2. apply rnd_le_f. rewrite O2. lra. }
  destruct (fsub_fin (f_of_Z 1) (fdiv (f_of_Z cnt) (f_of_Z (lo_len o))) O1 Fd) as (Es & Fs).
  { rewrite O2, Ed. rewrite Rabs_pos_eq by lra.
    apply Rle_lt_trans with 1; [lra|]. pose proof (f2r_bound (f_of_Z 1)) as Hb. rewrite O2, Rabs_pos_eq in Hb by lra. exact Hb. }
  rewrite O2, Ed in Es.
  assert (R2 : 0 <= f2r (lo_init o) * rnd (1 - frac o cnt) <= f2r (lo_init o)) by nra.
  assert (R3 : 0 <= rnd (f2r (lo_init o) * rnd (1 - frac o cnt)) <= f2r (lo_init o)).
  { split; [rewrite <- fzero_r; apply rnd_ge_f; rewrite fzero_r; lra|]. apply rnd_le_f. lra. }
  destruct (fmul_fin (lo_init o) (fsub (f_of_Z 1) (fdiv (f_of_Z cnt) (f_of_Z (lo_len o)))) F1 Fs) as (Em & Fm).
  { rewrite Es. rewrite Rabs_pos_eq by lra. pose proof (f2r_bound (lo_init o)) as Hb. rewrite Rabs_pos_eq in Hb by lra. lra. }
  rewrite Es in Em. unfold lr_formula. rewrite Em. auto.
Qed.

Definition lr_range (o : lr_opts) (lr : f64) : Prop :=
  is_fin lr = true /\ 0 <= f2r lr <= Rmax (f2r (lo_init o)) (f2r (lo_min o)).

Lemma tick_range o cnt lr lr' : opts_ok o -> (1 <= cnt <= lo_len o)%Z -> lr_range o lr ->
  lr_tick o cnt lr = Ret lr' -> lr_range o lr'.
Proof.
  intros Ho Hc Hr E. unfold lr_tick in E. destruct (_ =? _)%Z; [discriminate|].
  destruct (_ && _); [discriminate|]. injection E as <-.
  destruct (_ =? _)%Z; [|exact Hr]. destruct (flt _ _).
  - destruct Ho as (F1 & P1 & F2 & P2 & HL). split; [exact F2|]. split; [exact P2|apply Rmax_r].
  - destruct (formula_ok o cnt Ho Hc) as (F & _ & L & U). split; [exact F|]. split; [exact L|].
    eapply Rle_trans; [exact U|apply Rmax_l].
Qed.

Lemma ticks_range o : opts_ok o -> forall cnts lr lr', Forall (fun c => 1 <= c <= lo_len o)%Z cnts -> lr_range o lr ->
  lr_ticks o cnts lr = Ret lr' -> lr_range o lr'.
Proof.
  intros Ho. induction cnts as [|c cnts IH]; intros lr lr' HC Hr E; cbn [lr_ticks] in E.
  - injection E as <-. exact Hr.
  - inversion HC; subst. destruct (lr_tick o c lr) as [lr1| |] eqn:E1; cbn [obind] in E; try discriminate.
    eapply IH; [assumption| |exact E]. eapply tick_range; eauto.
Qed.

Lemma ticks_total o : lo_batch o <> 0%Z -> (lo_verbose o = false \/ lo_logbatch o <> 0%Z) ->
  forall cnts lr, exists lr', lr_ticks o cnts lr = Ret lr'.
Proof.
  intros Hb Hv. induction cnts as [|c cnts IH]; intros lr; cbn [lr_ticks]; eauto.
  unfold lr_tick. destruct (Z.eqb_spec (lo_batch o) 0); [contradiction|].
  assert (lo_verbose o && (lo_logbatch o =? 0)%Z = false) as ->.
  { destruct Hv as [->|Hv]; [reflexivity|]. destruct (lo_verbose o); [|reflexivity]. cbn. apply Z.eqb_neq; auto. }
  cbn [obind]. apply IH.
Qed.

Lemma range_lemma o cnts : opts_ok o -> lo_batch o <> 0%Z -> (lo_verbose o = false \/ lo_logbatch o <> 0%Z) ->
  Forall (fun c => 1 <= c <= lo_len o)%Z cnts ->
  exists lr, lr_ticks o cnts (lo_init o) = Ret lr /\ lr_range o lr.
Proof.
  intros Ho Hb Hv HC. destruct (ticks_total o Hb Hv cnts (lo_init o)) as (lr & E). exists lr. split; [exact E|].
  eapply ticks_range; [exact Ho|exact HC| |exact E].
  destruct Ho as (F1 & P1 & _). split; [exact F1|]. split; [exact P1|apply Rmax_l].
Qed.

Lemma formula_decreasing o c1 c2 : opts_ok o -> (1 <= c1 <= c2)%Z -> (c2 <= lo_len o)%Z ->
  f2r (lr_formula o c2) <= f2r (lr_formula o c1).
Proof.
  intros Ho H1 H2. destruct (formula_ok o c1 Ho ltac:(lia)) as (_ & -> & _). destruct (formula_ok o c2 Ho ltac:(lia)) as (_ & -> & _).
  apply rnd_le. apply Rmult_le_compat_l; [apply Ho|]. apply rnd_le.
  assert (frac o c1 <= frac o c2); [|lra]. apply rnd_le. apply Rmult_le_compat_r.
  - apply Rlt_le, Rinv_0_lt_compat. apply IZR_lt. lia.
  - apply IZR_le. lia.
Qed.

Lemma formula_end o : opts_ok o -> f2r (lr_formula o (lo_len o)) = 0.
Proof.
  intros Ho. destruct (formula_ok o (lo_len o) Ho) as (_ & -> & _); [destruct Ho as (_ & _ & _ & _ & H); lia|].
  unfold frac. unfold Rdiv. rewrite Rinv_r by (apply IZR_neq; destruct Ho as (_ & _ & _ & _ & H); lia).
  destruct one_fin as (_ & E1). rewrite <- E1 at 2. rewrite rnd_generic, E1. replace (1-1) with 0 by ring.
  rewrite rnd_0, Rmult_0_r, rnd_0. reflexivity.
Qed.

(** The last tick of an iteration over an unfiltered text whose length is a multiple of the batch. *)
Lemma end_rate o lr : opts_ok o -> lo_batch o <> 0%Z -> (lo_verbose o = false \/ lo_logbatch o <> 0%Z) ->
  Z.rem (lo_len o) (lo_batch o) = 0%Z -> flt lr (lo_min o) = false ->
  exists lr', lr_tick o (lo_len o) lr = Ret lr' /\ is_fin lr' = true /\ f2r lr' = 0.
Proof.
  intros Ho Hb Hv Hr Hlt. exists (lr_formula o (lo_len o)). split; [|split; [apply formula_ok; auto; destruct Ho as (_ & _ & _ & _ & H); lia|apply formula_end; auto]].
  unfold lr_tick. destruct (Z.eqb_spec (lo_batch o) 0); [contradiction|]. rewrite Hr, Hlt. cbn [Z.eqb].
  assert (lo_verbose o && (lo_logbatch o =? 0)%Z = false) as ->; [|reflexivity].
  destruct Hv as [->|Hv]; [reflexivity|]. destruct (lo_verbose o); [|reflexivity]. cbn. apply Z.eqb_neq; auto.
Qed.
