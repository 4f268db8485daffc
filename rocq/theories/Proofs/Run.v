(** * Generic facts about runs with values *)
From Coq Require Import Permutation.
From Verif.Lib Require Import Go ListFacts Tac.
From Verif.Model Require Import Sched Run.
From Verif.Spec Require Import Sched Slices.
From Verif.Proofs Require Import Sched SchedRun.

Ltac ret_eq := match goal with
  | HH : obind ?r _ = _ |- _ => let E := fresh "ER" in destruct r eqn:E; cbn [obind] in HH; try discriminate HH; try (injection HH as <- <-)
  | HH : _ = obind ?r _ |- _ => let E := fresh "ER" in destruct r eqn:E; cbn [obind] in HH; try discriminate HH; try (injection HH as <- <-)
  end.

Ltac ret_inj := match goal with HH : obind (Ret _) _ = Ret _ |- _ => cbn [obind] in HH; injection HH as <- <- end.

Section Generic.
Context {A X : Type}.
Variables (c : cfg) (E : effects A X).
Implicit Types (s : st A) (v : X).

Lemma vstep_step s v s' v' : vstep c E s v (Ret (s', v')) -> step c s s'.
Proof.
  intros H. inversion H; subst; auto.
  - eapply s_skip; eauto. exists d; auto.
  - eapply s_take; eauto. exists d; auto.
  - destruct (e_trial E x v); discriminate.
  - ret_eq. eapply s_give; eauto. exists d; auto.
  - ret_eq. eapply s_train; eauto. exists d; auto.
  - ret_eq. eapply s_obs; eauto.
Qed.

Lemma vrun_step_run iter mk l v l' v' : vrun_step c E iter mk l v (Ret (l', v')) -> run_step c iter mk l l'.
Proof.
  intros H. inversion H; subst.
  - destruct r as [[s' v1]| |]; try discriminate; ret_inj. constructor. eapply vstep_step; eauto.
  - constructor; auto.
Qed.

Lemma vruns_runs iter mk n l0 v0 l v : vruns c E iter mk n l0 v0 l v -> run_steps c iter mk n l0 l.
Proof. induction 1; econstructor; eauto. eapply vrun_step_run; eauto. Qed.

(** The observer is never busy with tick 0. *)
Definition busy_pos s : Prop := forall n, obs s = OBusy n -> 1 <= n.
Lemma step_busy s s' : step c s s' -> busy_pos s -> busy_pos s'.
Proof. intros HS B n Hn. destruct HS; cbn [obs] in *; try (apply B; congruence); try discriminate. injection Hn as <-. lia. Qed.

(** A source that closes its channel. *)
Definition src_ok (x : source A) : Prop := (forall u b, x = Chan u Closed b -> u = []) /\ nofail x.

Definition good_st (chunks : list (list A)) s : Prop := inv c chunks s /\ busy_pos s.

Lemma runs_busy iter mk n l : run_steps c iter mk n [init c (mk 0)] l -> Forall busy_pos l.
Proof.
  assert (G : forall m l0 l1, run_steps c iter mk m l0 l1 -> Forall busy_pos l0 -> Forall busy_pos l1).
  { intros m l0 l1 H. induction H as [|m l0 l1 l2 _ IH HS]; auto. intros H0. specialize (IH H0).
    destruct HS as [la s s' lb HS|la s Hm Hlt].
    - apply Forall_app in IH. destruct IH as (Ha & Hb). inversion Hb; subst. apply Forall_app. split; auto. constructor; auto. eapply step_busy; eauto.
    - rewrite app_assoc. apply Forall_app. split; auto. constructor; [|constructor]. intros n0 Hn. discriminate Hn. }
  intros H. eapply G; [exact H|]. constructor; [|constructor]. intros m Hm. discriminate Hm.
Qed.

(** Facts about a worker that is about to handle [x]. *)
Lemma worker_at chunks s i d w x t : inv c chunks s -> nth_error (wks s) i = Some (Worker d w) ->
  w = WRun (x :: t) \/ w = WHold x t ->
  In d chunks /\ length d - S (length t) < length d /\ nth_error d (length d - S (length t)) = Some x /\ In x (concat chunks).
Proof.
  intros I Hi Hw. pose proof (i_log _ _ _ I i _ Hi) as HL.
  assert (HR : remaining (Worker d w) = x :: t) by (destruct Hw as [-> | ->]; reflexivity).
  rewrite HR in HL. cbn [w_doc] in HL.
  assert (HD : In d chunks).
  { rewrite <- (i_chunks _ _ _ I). apply in_or_app. left. apply nth_error_In in Hi. apply (in_map (@w_doc A)) in Hi. exact Hi. }
  assert (HLen : length d = length (by_worker i (log s)) + S (length t)) by (rewrite <- HL, app_length; reflexivity).
  assert (HN : nth_error d (length d - S (length t)) = Some x).
  { rewrite <- HL at 1. rewrite nth_error_app2 by lia. replace (length d - S (length t) - _) with 0 by lia. reflexivity. }
  repeat split; auto; try lia. apply in_concat. exists d. split; auto. eapply nth_error_In; eauto.
Qed.

Lemma ticks_le chunks s : inv c chunks s -> ticks (obs s) <= length (concat chunks).
Proof.
  intros I. pose proof (i_obs _ _ _ I). pose proof (Permutation_length (log_perm _ _ _ I)) as P.
  rewrite app_length, map_length in P. lia.
Qed.

Ltac at_worker I := match goal with
  | HW : nth_error (wks _) _ = Some (Worker _ (WHold _ _)) |- _ => destruct (worker_at _ _ _ _ _ _ _ I HW (or_intror eq_refl)) as (W1 & W2 & W3 & W4)
  | HW : nth_error (wks _) _ = Some (Worker _ (WRun (_ :: _))) |- _ => destruct (worker_at _ _ _ _ _ _ _ I HW (or_introl eq_refl)) as (W1 & W2 & W3 & W4)
  end.

(** Preservation of a predicate on the values. *)
Section Pres.
Variables (P : X -> Prop) (chunks : list (list A)).
Hypothesis Htrial : forall x v v' b, P v -> In x (concat chunks) -> e_trial E x v = Ret (v', b) -> P v'.
Hypothesis Hwork : forall d pos v v', P v -> In d chunks -> pos < length d -> e_work E d pos v (Ret v') -> P v'.
Hypothesis Htick : forall n v v', P v -> 1 <= n <= length (concat chunks) -> e_tick E n v = Ret v' -> P v'.

Lemma vstep_pres s v s' v' : good_st chunks s -> P v -> vstep c E s v (Ret (s', v')) -> P v'.
Proof.
  intros (I & B) HP H. inversion H; subst; auto.
  - eapply Htrial; eauto. eapply worker_at; eauto.
  - eapply Htrial; eauto. eapply worker_at; eauto.
  - destruct (e_trial E x v); discriminate.
  - ret_eq. at_worker I. eapply Hwork; eauto.
  - ret_eq. at_worker I. eapply Hwork; [|exact W1|exact W2|eassumption]. eauto.
  - ret_eq. eapply Htick; eauto. split; [eapply B; eauto|].
    pose proof (ticks_le _ _ I) as T. match goal with HO : obs s = _ |- _ => rewrite HO in T end. exact T.
Qed.
End Pres.

Section Safe.
Variables (P : X -> Prop) (chunks : list (list A)).
Hypothesis Htrial : forall x v, P v -> In x (concat chunks) -> exists v' b, e_trial E x v = Ret (v', b) /\ P v'.
Hypothesis Hwork : forall d pos v, P v -> In d chunks -> pos < length d -> ~ e_work E d pos v Panic.
Hypothesis Htick : forall n v, P v -> 1 <= n <= length (concat chunks) -> e_tick E n v <> Panic.

Lemma vstep_safe s v : good_st chunks s -> P v -> ~ vstep c E s v Panic.
Proof.
  intros (I & B) HP H. inversion H; subst.
  - destruct (Htrial x v HP) as (v' & b & Et & _); [eapply worker_at; eauto|]. congruence.
  - ret_eq. at_worker I. eapply Hwork; eauto.
  - ret_eq. at_worker I.
    destruct (Htrial x v HP W4) as (v' & b & Et & HP'). match goal with HT : e_trial E x v = Ret (_, true) |- _ => rewrite HT in Et end. injection Et as <- <-. eapply Hwork; [|exact W1|exact W2|eassumption]. auto.
  - ret_eq. eapply Htick; eauto. split; [eapply B; eauto|].
    pose proof (ticks_le _ _ I) as T. match goal with HO : obs s = _ |- _ => rewrite HO in T end. exact T.
Qed.
End Safe.

(** Runs with the same source in every iteration. *)
Section Reach.
Variables (iter : nat) (x : source A).
Hypothesis Hx : src_ok x.
Let mk := fun _ : nat => x.

Lemma reach_good v0 l v : reaches c E iter mk v0 l v -> Forall (good_st (pending x)) l /\ length l <= iter /\
  forall l0 s l1, l = l0 ++ s :: l1 -> l1 <> [] -> main s = MDone.
Proof.
  unfold reaches. destruct (Nat.eqb_spec iter 0) as [->|Hi].
  { intros (-> & _). split; [constructor|]. split; [auto|]. intros [|? ?] ? ? H; discriminate H. }
  intros (n & H). apply vruns_runs in H. pose proof (runs_busy _ _ _ _ H) as HB.
  destruct (run_lemma c iter mk n l (fun _ => Hx) ltac:(lia) H) as ((HL & HI & HD) & _).
  split; [|split; [lia|]].
  - rewrite Forall_forall in *. intros s Hs. split; [|auto]. apply In_nth_error in Hs. destruct Hs as (j & Hj). apply (HI j s Hj).
  - intros l0 s l1 -> Hne. apply (HD (length l0)); [apply nth_len|]. rewrite app_length. destruct l1; [contradiction|]. cbn. lia.
Qed.

Variables (P : X -> Prop).
Hypothesis Htrial : forall y v v' b, P v -> In y (concat (pending x)) -> e_trial E y v = Ret (v', b) -> P v'.
Hypothesis Hwork : forall d pos v v', P v -> In d (pending x) -> pos < length d -> e_work E d pos v (Ret v') -> P v'.
Hypothesis Htick : forall n v v', P v -> 1 <= n <= length (concat (pending x)) -> e_tick E n v = Ret v' -> P v'.

Lemma reach_pres v0 l v : P v0 -> reaches c E iter mk v0 l v -> P v.
Proof.
  intros H0. unfold reaches. destruct (Nat.eqb_spec iter 0) as [->|Hi].
  { intros (_ & ->). exact H0. }
  intros (n & H). remember [init c (mk 0)] as l0 eqn:E0.
  induction H as [|n l0 v0 l v l' v' HR IH HS]; auto. specialize (IH H0 E0). subst l0.
  assert (G : Forall (good_st (pending x)) l).
  { eapply (reach_good v0 l v). unfold reaches. destruct (Nat.eqb_spec iter 0); [contradiction|]. exists n. exact HR. }
  inversion HS; subst; auto. destruct r as [[s' v1]| |]; try discriminate; ret_inj.
  apply Forall_app in G. destruct G as (_ & G). inversion G; subst. eapply vstep_pres; eauto.
Qed.
End Reach.

Section ReachSafe.
Variables (iter : nat) (x : source A) (P : X -> Prop).
Hypothesis Hx : src_ok x.
Hypothesis Htrial : forall y v, P v -> In y (concat (pending x)) -> exists v' b, e_trial E y v = Ret (v', b) /\ P v'.
Hypothesis Hwork : forall d pos v r, P v -> In d (pending x) -> pos < length d -> e_work E d pos v r ->
  match r with Ret v' => P v' | Err _ => True | Panic => False end.
Hypothesis Htick : forall n v, P v -> 1 <= n <= length (concat (pending x)) -> exists v', e_tick E n v = Ret v' /\ P v'.

Lemma reach_safe v0 l v : P v0 -> reaches c E iter (fun _ => x) v0 l v -> P v /\ ~ can_panic c E iter (fun _ => x) l v.
Proof.
  intros H0 HR.
  assert (HP : P v).
  { eapply (reach_pres iter x Hx P); [| | |exact H0|exact HR].
    - intros y v1 v' b Hv Hy Et. destruct (Htrial y v1 Hv Hy) as (v2 & b2 & E2 & H2). rewrite Et in E2. injection E2 as -> ->. exact H2.
    - intros d pos v1 v' Hv Hd Hp Hw. exact (Hwork d pos v1 _ Hv Hd Hp Hw).
    - intros n v1 v' Hv Hn Et. destruct (Htick n v1 Hv Hn) as (v2 & E2 & H2). rewrite Et in E2. injection E2 as ->. exact H2. }
  split; [exact HP|]. intros H. destruct (reach_good iter x Hx v0 l v HR) as (G & _). unfold can_panic in H. inversion H; subst.
  destruct r as [[s' v1]| |]; try discriminate. apply Forall_app in G. destruct G as (_ & G). inversion G; subst.
  eapply (vstep_safe P (pending x)); eauto.
  - intros d pos v1 Hv Hd Hp Hw. exact (Hwork d pos v1 _ Hv Hd Hp Hw).
  - intros n v1 Hv Hn Et. destruct (Htick n v1 Hv Hn) as (v2 & E2 & _). congruence.
Qed.
End ReachSafe.

Section ReachTotal.
Variables (iter : nat) (x : source A) (P : X -> Prop).
Hypothesis Hx : src_ok x.
Hypothesis Htrial : forall y v, P v -> In y (concat (pending x)) -> exists v' b, e_trial E y v = Ret (v', b) /\ P v'.
Hypothesis Hwork : forall d pos v r, P v -> In d (pending x) -> pos < length d -> e_work E d pos v r -> exists v', r = Ret v' /\ P v'.
Hypothesis Htick : forall n v, P v -> 1 <= n <= length (concat (pending x)) -> exists v', e_tick E n v = Ret v' /\ P v'.

Lemma reach_total v0 l v : P v0 -> reaches c E iter (fun _ => x) v0 l v ->
  P v /\ forall r, vrun_step c E iter (fun _ => x) l v r -> exists p, r = Ret p.
Proof.
  intros H0 HR.
  assert (HP : P v).
  { eapply (reach_safe iter x P Hx Htrial); [|exact Htick|exact H0|exact HR].
    intros d pos v1 r Hv Hd Hp Hw. destruct (Hwork d pos v1 r Hv Hd Hp Hw) as (v' & -> & Hv'). exact Hv'. }
  split; [exact HP|]. intros r H. destruct (reach_good iter x Hx v0 l v HR) as (G & _). inversion H; subst; [|eauto].
  assert (HS : exists p, r0 = Ret p).
  { apply Forall_app in G. destruct G as (_ & G). inversion G as [|? ? (I & B) _]; subst.
    match goal with HV : vstep _ _ _ _ _ |- _ => inversion HV; subst end; eauto.
    - match goal with HN : forall p, ?e <> Ret p |- _ => destruct (Htrial x0 v HP) as (v' & b & Et & _); [eapply worker_at; eauto|]; exfalso; eapply HN; exact Et end.
    - at_worker I. match goal with HW : e_work _ _ _ _ ?q |- _ => destruct (Hwork _ _ _ _ HP W1 W2 HW) as (v' & -> & _) end. cbn [obind]. eauto.
    - at_worker I. destruct (Htrial x0 v HP W4) as (v' & b & Et & HP').
      match goal with HT : e_trial E x0 v = Ret (_, true) |- _ => rewrite HT in Et end. injection Et as <- <-.
      match goal with HW : e_work _ _ _ _ ?q |- _ => destruct (Hwork _ _ _ _ HP' W1 W2 HW) as (v' & -> & _) end. cbn [obind]. eauto.
    - match goal with HO : obs s = OBusy ?n |- _ => destruct (Htick n v HP) as (v' & -> & _);
        [split; [eapply B; eauto|]; pose proof (ticks_le _ _ I) as T; rewrite HO in T; exact T|] end. cbn [obind]. eauto. }
  destruct HS as ([s' v'] & ->). cbn [obind]. eauto.
Qed.
End ReachTotal.

(** Failures that are errors in another semantics of trainOne. *)
Section ReachMarked.
Variables (E' : effects A X) (iter : nat) (x : source A) (P : X -> Prop).
Hypothesis Hx : src_ok x.
Hypothesis Etrial : e_trial E' = e_trial E.
Hypothesis Htrial : forall y v, P v -> In y (concat (pending x)) -> exists v' b, e_trial E y v = Ret (v', b) /\ P v'.
Hypothesis Hwork : forall d pos v r, P v -> In d (pending x) -> pos < length d -> e_work E d pos v r ->
  (exists v', r = Ret v' /\ P v') \/ (r = Panic /\ exists e, e_work E' d pos v (Err e)).
Hypothesis Htick : forall n v, P v -> 1 <= n <= length (concat (pending x)) -> exists v', e_tick E n v = Ret v' /\ P v'.

Lemma reach_marked v0 l v : P v0 -> reaches c E iter (fun _ => x) v0 l v ->
  P v /\ forall r, vrun_step c E iter (fun _ => x) l v r ->
    (exists p, r = Ret p) \/ (r = Panic /\ exists e, vrun_step c E' iter (fun _ => x) l v (Err e)).
Proof.
  intros H0 HR.
  assert (HP : P v).
  { eapply (reach_pres iter x Hx P); [| | |exact H0|exact HR].
    - intros y v1 v' b Hv Hy Et. destruct (Htrial y v1 Hv Hy) as (v2 & b2 & E2 & H2). rewrite Et in E2. injection E2 as -> ->. exact H2.
    - intros d pos v1 v' Hv Hd Hp Hw. destruct (Hwork d pos v1 _ Hv Hd Hp Hw) as [(v2 & E2 & H2)|(E2 & _)]; [injection E2 as ->; exact H2|discriminate].
    - intros n v1 v' Hv Hn Et. destruct (Htick n v1 Hv Hn) as (v2 & E2 & H2). rewrite Et in E2. injection E2 as ->. exact H2. }
  split; [exact HP|]. intros r H. destruct (reach_good iter x Hx v0 l v HR) as (G & _). inversion H; subst; [|eauto].
  assert (HS : (exists p, r0 = Ret p) \/ (r0 = Panic /\ exists e, vstep c E' s v (Err e))).
  { apply Forall_app in G. destruct G as (_ & G). inversion G as [|? ? (I & B) _]; subst.
    match goal with HV : vstep _ _ _ _ _ |- _ => inversion HV; subst end; eauto.
    - match goal with HN : forall p, ?e <> Ret p |- _ => destruct (Htrial x0 v HP) as (v' & b & Et & _); [eapply worker_at; eauto|]; exfalso; eapply HN; exact Et end.
    - at_worker I. match goal with HW : e_work _ _ _ _ ?q |- _ => destruct (Hwork _ _ _ _ HP W1 W2 HW) as [(v' & -> & _)|(-> & e & He)] end; cbn [obind]; [eauto|].
      right. split; [reflexivity|]. exists e. change (vstep c E' s v (obind (Err e) (fun v' => Ret
      (St (src s) (main s) (set_w s i (WSend t)) (obs s) (sem s) (S (pool s)) (wg s) (tclosed s) false (log s ++ [(i, x0)]), v')))).
      eapply v_give; eauto.
    - at_worker I. destruct (Htrial x0 v HP W4) as (v' & b & Et & HP').
      match goal with HT : e_trial E x0 v = Ret (_, true) |- _ => rewrite HT in Et end. injection Et as <- <-.
      match goal with HW : e_work _ _ _ _ ?q |- _ => destruct (Hwork _ _ _ _ HP' W1 W2 HW) as [(v' & -> & _)|(-> & e & He)] end; cbn [obind]; [eauto|].
      right. split; [reflexivity|]. exists e. change (vstep c E' s v (obind (Err e) (fun v' => Ret
      (St (src s) (main s) (set_w s i (WSend t)) (obs s) (sem s) (pool s) (wg s) (tclosed s) false (log s ++ [(i, x0)]), v')))).
      eapply v_train; eauto. rewrite Etrial. eassumption.
    - match goal with HO : obs s = OBusy ?n |- _ => destruct (Htick n v HP) as (v' & -> & _);
        [split; [eapply B; eauto|]; pose proof (ticks_le _ _ I) as T; rewrite HO in T; exact T|] end. cbn [obind]. eauto. }
  destruct HS as [([s' v'] & ->)|(-> & e & He)]; cbn [obind]; [eauto|]. right. split; [reflexivity|]. exists e.
  change (vrun_step c E' iter (fun _ => x) (l1 ++ s :: l2) v (obind (Err e) (fun '(s', v') => Ret (l1 ++ s' :: l2, v')))). constructor. exact He.
Qed.
End ReachMarked.
End Generic.
