(** Marking the failing table lookups: a run with [sig'] (which returns an error where [sig]
    panics) determines the run with [sig]. *)
From Verif.Lib Require Import Go F64 ListFacts Tac.
From Verif.Model Require Import Dictionary ModelUtil Matrix Huffman Window Word2vec Sigmoid.
From Verif.Spec Require Import Rows Training Tree Reach.
From Verif.Proofs Require Import Window Word2vec TrainOne.
Local Open Scope Z_scope.

Definition follows {A} (o o' : outcome A) : Prop :=
  match o' with Ret a => o = Ret a | _ => o = Panic end.

Lemma follows_bind {A B} (o o' : outcome A) (f f' : A -> outcome B) :
  follows o o' -> (forall a, follows (f a) (f' a)) -> follows (obind o f) (obind o' f').
Proof. intros H Hf. destruct o'; cbn [follows obind] in *; subst o; cbn [obind]; auto. Qed.

(** Outcomes that cannot be errors. *)
Definition noerr {A} (o : outcome A) : Prop := match o with Err _ => False | _ => True end.
Lemma follows_same {A} (o : outcome A) : noerr o -> follows o o.
Proof. destruct o; cbn; tauto. Qed.
Lemma noerr_bind {A B} (o : outcome A) (f : A -> outcome B) : noerr o -> (forall a, noerr (f a)) -> noerr (obind o f).
Proof. destruct o; cbn; auto. Qed.

Lemma vacc_noerr g : forall src dst, noerr (vacc g dst src).
Proof. induction src as [|s src IH]; intros [|d dst]; cbn; auto. apply noerr_bind; cbn; auto. Qed.
Lemma vdot_noerr : forall y acc x, noerr (vdot acc x y).
Proof. induction y as [|s y IH]; intros acc [|d x]; cbn; auto. Qed.
Lemma vadd_into_noerr dst src : noerr (vadd_into dst src).
Proof. unfold vadd_into. destruct (_ <? _)%nat; [exact I|]. apply vacc_noerr. Qed.
Lemma mat_slice_noerr m i : noerr (mat_slice m i).
Proof. unfold mat_slice. cbv zeta. destruct (slice_ok _ _ _); exact I. Qed.
Lemma next_random_noerr n v : noerr (snd (next_random n v)).
Proof. unfold next_random. cbv zeta. cbn [snd]. destruct (_ =? _); exact I. Qed.

Section Hom.
Variables sig sig' : f64 -> outcome f64.
Hypothesis Hsig : forall x, fle x (fopp max_exp) = false -> fge x max_exp = false -> follows (sig x) (sig' x).

Lemma ns_grad_follows label lr inner : follows (ns_grad sig label lr inner) (ns_grad sig' label lr inner).
Proof.
  unfold ns_grad. destruct (fle _ _) eqn:E1; [reflexivity|]. destruct (fge _ _) eqn:E2; [reflexivity|].
  apply follows_bind; [apply Hsig; auto|]. reflexivity.
Qed.

Lemma ns_step_follows lr ctx label picked m tmp :
  follows (ns_step sig lr ctx label picked m tmp) (ns_step sig' lr ctx label picked m tmp).
Proof.
  unfold ns_step. apply follows_bind; [apply follows_same, mat_slice_noerr|]. intros rnd.
  apply follows_bind; [apply follows_same, vdot_noerr|]. intros inner.
  apply follows_bind; [apply ns_grad_follows|]. intros g.
  apply follows_bind; [apply follows_same, vacc_noerr|]. intros tmp'.
  apply follows_bind; [apply follows_same, vacc_noerr|]. reflexivity.
Qed.

Lemma ns_negatives_follows lr ctx id : forall n next m tmp,
  follows (ns_negatives sig lr ctx id n next m tmp) (ns_negatives sig' lr ctx id n next m tmp).
Proof.
  induction n as [|n IH]; intros; cbn [ns_negatives]; [reflexivity|].
  pose proof (next_random_noerr next (m_row m)) as HN.
  destruct (next_random next (m_row m)) as [next' o]. cbn [snd] in HN.
  apply follows_bind; [apply follows_same, HN|]. intros picked.
  destruct (id =? picked); [apply IH|]. apply follows_bind; [apply ns_step_follows|]. intros [m' tmp']. apply IH.
Qed.

Lemma hs_loop_follows lr ctx : forall path h tmp, follows (hs_loop sig lr ctx path h tmp) (hs_loop sig' lr ctx path h tmp).
Proof.
  induction path as [|p path IH]; intros h tmp; [reflexivity|]. destruct path as [|q path]; [reflexivity|].
  cbn [hs_loop]. apply follows_bind; [apply follows_same, vdot_noerr|]. intros inner.
  destruct (_ || _) eqn:E; [reflexivity|]. apply orb_false_iff in E. destruct E as (E1 & E2).
  apply follows_bind; [apply Hsig; auto|]. intros s.
  apply follows_bind; [apply follows_same, vacc_noerr|]. intros tmp'.
  apply follows_bind; [apply follows_same, vacc_noerr|]. intros vec'. apply IH.
Qed.

Lemma get_path_noerr h n depth : noerr (snd (get_path h n depth)).
Proof. unfold get_path. cbv zeta. cbn [snd]. destruct (_ <? _); exact I. Qed.

Lemma optim_follows opt lr ctx id next tmp :
  follows (optim sig opt lr ctx id next tmp) (optim sig' opt lr ctx id next tmp).
Proof.
  destruct opt as [m k|h set depth]; cbn [optim].
  - apply follows_bind; [|intros [[a b] c]; reflexivity]. unfold ns_optim. destruct (_ <=? _); [reflexivity|].
    apply follows_bind; [apply ns_step_follows|]. intros [m' tmp']. apply ns_negatives_follows.
  - apply follows_bind; [|intros [a b]; reflexivity]. unfold hs_optim. destruct (zindex set id); [|reflexivity].
    pose proof (get_path_noerr h n depth) as HN. destruct (get_path h n depth) as [h' o]. cbn [snd] in HN.
    apply follows_bind; [apply follows_same, HN|]. intros path. apply hs_loop_follows.
Qed.

Lemma ofold_follows {A S} (f f' : A -> S -> outcome S) : (forall a s, follows (f a s) (f' a s)) ->
  forall l s, follows (ofold f l s) (ofold f' l s).
Proof.
  intros H. induction l as [|a l IH]; intros s; cbn [ofold]; [reflexivity|]. apply follows_bind; auto.
Qed.

Lemma windowed_follows {S} (f f' : Z -> S -> outcome S) len pos window del st : (forall a s, follows (f a s) (f' a s)) ->
  follows (windowed f len pos window del st) (windowed f' len pos window del st).
Proof. intros H. unfold windowed. rewrite !win_loop_ofold. apply ofold_follows; auto. Qed.

Lemma sg_follows window doc pos lr st : follows (sg_train_one sig window doc pos lr st) (sg_train_one sig' window doc pos lr st).
Proof.
  unfold sg_train_one. pose proof (next_random_noerr (s_next st) window) as HN.
  destruct (next_random _ _) as [n' o]. cbn [snd] in HN. apply follows_bind; [apply follows_same, HN|]. intros del.
  apply windowed_follows. intros c s. unfold sg_body. destruct (zindex doc c); [|reflexivity].
  destruct (zindex doc pos); [|reflexivity].
  apply follows_bind; [apply follows_same, mat_slice_noerr|]. intros ctx.
  apply follows_bind; [apply optim_follows|]. intros [[n1 o1] t1].
  apply follows_bind; [apply follows_same, vadd_into_noerr|]. reflexivity.
Qed.

Lemma dowith_follows window doc pos f st : (forall c s, noerr (f c s)) ->
  follows (cb_dowith window doc pos f st) (cb_dowith window doc pos f st).
Proof.
  intros Hf. unfold cb_dowith. pose proof (next_random_noerr (s_next st) window) as HN.
  destruct (next_random _ _) as [n' o]. cbn [snd] in HN. apply follows_bind; [apply follows_same, HN|]. intros del.
  apply windowed_follows. intros c s. apply follows_same, Hf.
Qed.

Lemma cb_follows window doc pos lr st : follows (cb_train_one sig window doc pos lr st) (cb_train_one sig' window doc pos lr st).
Proof.
  unfold cb_train_one. apply follows_bind.
  { apply dowith_follows. intros c s. unfold cb_aggregate. destruct (zindex doc c); [|exact I].
    apply noerr_bind; [apply mat_slice_noerr|]. intros. apply noerr_bind; [apply vacc_noerr|]. intros; exact I. }
  intros st1. destruct (zindex doc pos); [|reflexivity].
  apply follows_bind; [apply optim_follows|]. intros [[n1 o1] t1].
  apply dowith_follows. intros c s. unfold cb_update. destruct (zindex doc c); [|exact I].
  apply noerr_bind; [apply mat_slice_noerr|]. intros. apply noerr_bind; [apply vadd_into_noerr|]. intros; exact I.
Qed.

Lemma reach_to d dim opt : opt_reach sig d dim opt -> opt_reach sig' d dim opt.
Proof.
  induction 1 as [rows k Hr Hl|h set depth E Hd|opt lr ctx id next tmp next' opt' tmp' HR IH Hc Ht Hid E].
  - constructor; auto.
  - constructor; auto.
  - eapply or_step; [exact IH|exact Hc|exact Ht|exact Hid|].
    pose proof (optim_follows opt lr ctx (Z.of_nat id) next tmp) as F. rewrite E in F.
    destruct (optim sig' opt lr ctx (Z.of_nat id) next tmp) as [r| |] eqn:E'; cbn [follows] in F; try discriminate.
    injection F as <-. exact E'.
Qed.

Lemma reach_from d dim opt : opt_reach sig' d dim opt -> opt_reach sig d dim opt.
Proof.
  induction 1 as [rows k Hr Hl|h set depth E Hd|opt lr ctx id next tmp next' opt' tmp' HR IH Hc Ht Hid E].
  - constructor; auto.
  - constructor; auto.
  - eapply or_step; [exact IH|exact Hc|exact Ht|exact Hid|].
    pose proof (optim_follows opt lr ctx (Z.of_nat id) next tmp) as F. rewrite E in F. exact F.
Qed.
End Hom.
