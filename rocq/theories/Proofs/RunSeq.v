(** * One goroutine: every run is the sequential one; progress of runs *)
From Coq Require Import Permutation.
From Verif.Lib Require Import Go ListFacts Tac.
From Verif.Model Require Import Sched Run.
From Verif.Spec Require Import Sched Slices Sequential.
From Verif.Proofs Require Import Sched SchedRun Run.

Section Seq.
Context {A X : Type}.
Variables (c : cfg) (E : effects A X) (d : list A) (f : list A -> nat -> X -> outcome X).
Hypothesis Hwork : forall pos v r, pos < length d -> e_work E d pos v r -> r = f d pos v.
Hypothesis Htick : forall n v, 1 <= n <= length d -> e_tick E n v = Ret v.
Implicit Types (s : st A) (v : X).

Let pass := one_pass (e_trial E) f d.

Definition cur s v : outcome X :=
  match wks s with
  | [] => pass 0 d v
  | Worker _ w :: _ =>
      match w with
      | WNew => pass 0 d v
      | WRun t => pass (length d - length t) t v
      | WHold x t => obind (f d (length d - S (length t)) v) (pass (length d - length t) t)
      | WSend t => pass (length d - length t) t v
      | WRel => Ret v
      | WEnd => Ret v
      end
  end.

Lemma one_worker s : inv c [d] s -> (wks s = [] /\ pending (src s) = [d]) \/ (exists w, wks s = [Worker d w] /\ pending (src s) = []).
Proof.
  intros I. pose proof (i_chunks _ _ _ I) as H. destruct (wks s) as [|[d0 w0] ws]; [left; auto|]. cbn in H. right.
  injection H as -> H. apply app_eq_nil in H. destruct H as (H1 & H2). apply map_eq_nil in H1. subst. eauto.
Qed.

Lemma worker0 s i d0 w : inv c [d] s -> nth_error (wks s) i = Some (Worker d0 w) -> i = 0 /\ d0 = d /\ wks s = [Worker d w] /\ pending (src s) = [].
Proof.
  intros I Hi. destruct (one_worker s I) as [(E0 & _)|(w' & E0 & Ep)]; rewrite E0 in Hi; destruct i as [|[|i]]; cbn in Hi; try discriminate.
  injection Hi as <- ->. auto.
Qed.

Lemma todo_le s w : inv c [d] s -> wks s = [Worker d w] -> length (remaining (Worker d w)) <= length d.
Proof. intros I Ew. pose proof (i_log _ _ _ I 0 (Worker d w)) as H. rewrite Ew in H. specialize (H eq_refl). cbn [w_doc] in H. rewrite <- H at 2. rewrite app_length. lia. Qed.

Lemma set_w0 s w w' : wks s = [Worker d w] -> set_w s 0 w' = [Worker d w'].
Proof. intros H. unfold set_w. rewrite H. reflexivity. Qed.

Lemma cur_quiet s s' v : good_st c [d] s -> step c s s' -> quiet s s' -> cur s' v = cur s v.
Proof.
  intros (I & B) HS (Q1 & Q2 & Q3).
  assert (NL : forall {T} (l : list T) z, l ++ [z] <> l).
  { intros T l z H. apply (f_equal (@length T)) in H. rewrite app_length in H. cbn in H. lia. }
  assert (SP : forall d0 x, pending (src s) = d0 :: x -> wks s = [] /\ d0 = d).
  { intros d0 x Hp. destruct (one_worker s I) as [(E0 & Ep)|(w & _ & Ep)]; rewrite Ep in Hp; [|discriminate]. injection Hp as -> _. auto. }
  destruct HS; cbn [log obs pool] in *; try (exfalso; eapply NL; eassumption); try reflexivity; unfold cur; cbn [wks].
  - match goal with H : src s = _ |- _ => rewrite H in SP end. destruct (SP _ _ eq_refl) as (-> & ->). reflexivity.
  - match goal with H : src s = _ |- _ => rewrite H in SP end. destruct (SP _ _ eq_refl) as (-> & ->). reflexivity.
  - match goal with H : src s = _ |- _ => rewrite H in SP end. destruct (SP _ _ eq_refl) as (-> & ->). reflexivity.
  - destruct (worker0 _ _ _ _ I H0) as (-> & -> & Ew & _). rewrite (set_w0 _ _ _ Ew), Ew. rewrite Nat.sub_diag. reflexivity.
  - lia.
  - destruct H0 as (d0 & H0). destruct (worker0 _ _ _ _ I H0) as (-> & -> & Ew & _). rewrite (set_w0 _ _ _ Ew), Ew. reflexivity.
  - destruct H0 as (d0 & H0). destruct (worker0 _ _ _ _ I H0) as (-> & -> & Ew & _). rewrite (set_w0 _ _ _ Ew), Ew. reflexivity.
  - destruct H0 as (d0 & H0). destruct (worker0 _ _ _ _ I H0) as (-> & -> & Ew & _). rewrite (set_w0 _ _ _ Ew), Ew. reflexivity.
Qed.

Lemma next_pos (t : list A) : S (length t) <= length d -> S (length d - S (length t)) = length d - length t.
Proof. lia. Qed.

(** What remains to be computed is the same after every step; a failing step fails the same way. *)
Lemma cur_step s v r : good_st c [d] s -> vstep c E s v r ->
  match r with Ret (s', v') => cur s' v' = cur s v | Err e => cur s v = Err e | Panic => cur s v = Panic end.
Proof.
  intros G H. pose proof G as (I & B). inversion H; subst.
  - apply cur_quiet; auto.
  - match goal with HW : nth_error _ _ = _ |- _ => destruct (worker0 _ _ _ _ I HW) as (-> & -> & Ew & _) end.
    pose proof (todo_le _ _ I Ew) as L. cbn in L.
    unfold cur. cbn [wks]. rewrite (set_w0 _ _ _ Ew), Ew. unfold pass at 2. cbn [one_pass length].
    match goal with HT : e_trial E x v = _ |- _ => rewrite HT end. cbn [obind]. rewrite next_pos by exact L. reflexivity.
  - match goal with HW : nth_error _ _ = _ |- _ => destruct (worker0 _ _ _ _ I HW) as (-> & -> & Ew & _) end.
    pose proof (todo_le _ _ I Ew) as L. cbn in L.
    unfold cur. cbn [wks]. rewrite (set_w0 _ _ _ Ew), Ew. unfold pass at 2. cbn [one_pass length].
    match goal with HT : e_trial E x v = _ |- _ => rewrite HT end. cbn [obind]. rewrite next_pos by exact L. reflexivity.
  - match goal with HW : nth_error _ _ = _ |- _ => destruct (worker0 _ _ _ _ I HW) as (-> & -> & Ew & _) end.
    unfold cur. rewrite Ew. unfold pass. cbn [one_pass].
    destruct (e_trial E x v) as [p| |]; [exfalso; match goal with HN : forall _, Ret _ <> Ret _ |- _ => exact (HN p eq_refl) end|reflexivity|reflexivity].
  - match goal with HW : nth_error _ _ = _ |- _ => destruct (worker_at c _ _ _ _ _ _ _ I HW (or_intror eq_refl)) as (_ & Lp & _);
       destruct (worker0 _ _ _ _ I HW) as (-> & -> & Ew & _) end.
    match goal with HE : e_work _ _ _ _ _ |- _ => apply Hwork in HE; [|exact Lp]; subst r0 end.
    unfold cur. rewrite Ew. destruct (f d _ v) as [v'| |]; cbn [obind]; auto. cbn [wks]. rewrite (set_w0 _ _ _ Ew). reflexivity.
  - match goal with HW : nth_error _ _ = _ |- _ => destruct (worker_at c _ _ _ _ _ _ _ I HW (or_introl eq_refl)) as (_ & Lp & _);
       destruct (worker0 _ _ _ _ I HW) as (-> & -> & Ew & _) end.
    pose proof (todo_le _ _ I Ew) as L. cbn in L.
    match goal with HE : e_work _ _ _ _ _ |- _ => apply Hwork in HE; [|exact Lp]; subst r0 end.
    unfold cur. rewrite Ew. unfold pass. cbn [one_pass length]. match goal with HT : e_trial E x v = _ |- _ => rewrite HT end. cbn [obind].
    destruct (f d _ v1) as [v'| |]; cbn [obind]; auto. cbn [wks]. rewrite (set_w0 _ _ _ Ew). rewrite next_pos by exact L. reflexivity.
  - rewrite Htick; [cbn [obind]; reflexivity|]. split; [eapply B; eauto|].
    pose proof (ticks_le c _ _ I) as T. match goal with HO : obs s = _ |- _ => rewrite HO in T end. cbn [ticks concat] in T. rewrite app_nil_r in T. exact T.
Qed.

Lemma cur_done s v : inv c [d] s -> main s = MDone -> cur s v = Ret v.
Proof.
  intros I Hm. destruct (done_all _ _ _ I Hm) as (Hp & _). destruct (one_worker s I) as [(_ & Ep)|(w & Ew & _)]; [congruence|].
  pose proof (i_done _ _ _ I Hm) as Hw. rewrite (i_wg _ _ _ I), Ew in Hw. unfold cur. rewrite Ew. destruct w; try discriminate Hw; reflexivity.
Qed.

Section Iter.
Variables (iter : nat) (x : source A).
Hypothesis Hx : src_ok x.
Hypothesis Hp : pending x = [d].
Let mk := fun _ : nat => x.

Definition rest (l : list (st A)) v : outcome X :=
  match rev l with
  | [] => Ret v
  | s :: _ => obind (cur s v) (passes (e_trial E) f (iter - length l) d)
  end.

Lemma rest_last l s v : rest (l ++ [s]) v = obind (cur s v) (passes (e_trial E) f (iter - length (l ++ [s])) d).
Proof. unfold rest. rewrite rev_app_distr. reflexivity. Qed.

Lemma rest_step l v r : Forall (good_st c [d]) l -> (forall l0 s l1, l = l0 ++ s :: l1 -> l1 <> [] -> main s = MDone) ->
  vrun_step c E iter mk l v r ->
  match r with Ret (l', v') => rest l' v' = rest l v | Err e => rest l v = Err e | Panic => rest l v = Panic end.
Proof.
  intros G HD H. inversion H; subst.
  - match goal with HV : vstep _ _ _ _ _ |- _ => rename HV into HS end.
    apply Forall_app in G. destruct G as (G1 & G2). inversion G2 as [|? ? G0 G3]; subst.
    pose proof (cur_step _ _ _ G0 HS) as C.
    assert (D2 : l2 = [] \/ l2 <> []) by (destruct l2; [left; reflexivity|right; discriminate]). destruct D2 as [->|Hne].
    + destruct r0 as [[s' v']| |]; cbn [obind]; rewrite ?rest_last, ?C; try reflexivity. rewrite !app_length. reflexivity.
    + assert (Hm : main s = MDone) by (eapply HD; eauto). rewrite (cur_done s v (proj1 G0) Hm) in C.
      destruct r0 as [[s' v']| |]; try discriminate C. cbn [obind].
      assert (C' : cur s' v' = Ret v').
      { pose proof (vstep_step _ _ _ _ _ _ HS) as HS'. apply cur_done; [eapply step_inv; [apply G0|exact HS']|eapply step_mdone; eauto]. }
      rewrite C' in C. injection C as ->.
      destruct (exists_last Hne) as (l3 & z & ->). rewrite !app_comm_cons, !app_assoc, !rest_last, !app_length. reflexivity.
  - rewrite app_assoc. rewrite !rest_last. apply Forall_app in G. destruct G as (_ & G). inversion G as [|? ? G0 _]; subst.
    rewrite (cur_done s v (proj1 G0)) by assumption. cbn [obind].
    rewrite (app_length (l0 ++ [s]) [_]). cbn [length].
    replace (iter - length (l0 ++ [s])) with (S (iter - (length (l0 ++ [s]) + 1))) by lia. reflexivity.
Qed.

Lemma rest_reach v0 l v : reaches c E iter mk v0 l v -> rest l v = passes (e_trial E) f iter d v0.
Proof.
  unfold reaches. destruct (Nat.eqb_spec iter 0) as [E0|Hi].
  { intros (-> & ->). rewrite E0. reflexivity. }
  intros (n & H). remember [init c (mk 0)] as l0 eqn:E0.
  induction H as [|n l0 v0 l v l' v' HR IH HS].
  - subst. unfold rest. cbn [rev app length]. change (cur (init c (mk 0)) v) with (pass 0 d v). unfold pass.
    replace iter with (S (iter - 1)) at 2 by lia. reflexivity.
  - rewrite <- (IH E0). subst l0.
    destruct (reach_good c E iter x Hx v0 l v) as (G & _ & HD).
    { unfold reaches. destruct (Nat.eqb_spec iter 0); [contradiction|]. exists n. exact HR. }
    rewrite Hp in G. exact (rest_step l v _ G HD HS).
Qed.

Lemma trains_seq v0 v : trains c E iter mk v0 v -> passes (e_trial E) f iter d v0 = Ret v.
Proof.
  intros (l & HR & HL & HM). rewrite <- (rest_reach v0 l v HR). destruct HM as [Hi|(l0 & s & -> & Hm)].
  - rewrite Hi in HL. destruct l; [reflexivity|discriminate].
  - rewrite rest_last, HL, Nat.sub_diag. destruct (reach_good c E iter x Hx v0 _ v HR) as (G & _). apply Forall_app in G. destruct G as (_ & G).
    inversion G as [|? ? G0 _]; subst. rewrite Hp in G0. rewrite (cur_done s v (proj1 G0) Hm). reflexivity.
Qed.

Lemma fails_seq v0 l v r : reaches c E iter mk v0 l v -> vrun_step c E iter mk l v r -> (forall p, r <> Ret p) ->
  passes (e_trial E) f iter d v0 = obind r (fun _ => Panic).
Proof.
  intros HR HS Hr. rewrite <- (rest_reach v0 l v HR). destruct (reach_good c E iter x Hx v0 l v HR) as (G & _ & HD).
  rewrite Hp in G. pose proof (rest_step l v r G HD HS) as C. destruct r as [p| |]; [exfalso; eapply Hr; eauto|exact C|exact C].
Qed.
End Iter.
End Seq.

(** ** Progress: a configuration without next step is the end. *)
Section Progress.
Context {A X : Type}.
Variables (c : cfg) (E : effects A X) (iter : nat) (x : source A).
Hypothesis Hg : 0 < c_g c.
Hypothesis Hx : src_ok x.
Hypothesis Hskip : c_skip c = false -> forall y v v', e_trial E y v <> Ret (v', false).
Hypothesis Htotal : forall d pos v, exists r, e_work E d pos v r.
Let mk := fun _ : nat => x.

Lemma step_vstep chunks s s' v : inv c chunks s -> step c s s' -> exists r, vstep c E s v r.
Proof.
  intros I HS.
  assert (GO : forall i d y t, nth_error (wks s) i = Some (Worker d (WRun (y :: t))) -> exists r, vstep c E s v r).
  { intros i d y t Hi. pose proof (i_crash _ _ _ I) as Hc.
    destruct (e_trial E y v) as [[v1 [|]]|e|] eqn:Et.
    - destruct (c_pool c) eqn:Epool.
      + eexists. eapply v_take; eauto.
        pose proof (cnt_upd holds_sem _ _ _ d _ WEnd Hi) as H4. pose proof (cnt_upd in_train _ _ _ d _ WEnd Hi) as H5.
        cbn [holds_sem in_train b2n] in H4, H5.
        pose proof (cnt_le in_train holds_sem (fun w => ltac:(destruct w; cbn; auto)) (upd (wks s) i (Worker d WEnd))).
        pose proof (i_sem _ _ _ I). pose proof (i_semle _ _ _ I). pose proof (i_pool _ _ _ I). lia.
      + destruct (Htotal d (length d - S (length t)) v1) as (r & Hr). eexists. eapply v_train; eauto.
    - destruct (c_skip c) eqn:Es; [|exfalso; eapply Hskip; eauto]. eexists. eapply v_skip; eauto.
    - eexists. eapply v_trial_fails; eauto. discriminate.
    - eexists. eapply v_trial_fails; eauto. discriminate. }
  assert (Q : forall s1, step c s s1 -> log s1 = log s -> pool s <= pool s1 -> (forall n, obs s = OBusy n -> obs s1 = OBusy n) -> exists r, vstep c E s v r).
  { intros s1 H1 H2 H3 H4. eexists. apply v_quiet; [exact H1|]. split; auto. }
  pose proof HS as HS0. destruct HS; try (eapply Q; [exact HS0|reflexivity|cbn; lia|cbn; auto; fail]);
    try (match goal with H : at_w s _ (WRun (_ :: _)) |- _ => destruct H as (d & Hi) end; eapply GO; exact Hi).
  - destruct H0 as (d & Hi). destruct (Htotal d (length d - S (length t)) v) as (r & Hr). eexists. eapply v_give; eauto.
  - eapply Q; [exact HS0|reflexivity|cbn; lia|]. cbn. congruence.
  - eexists. eapply v_tick; eauto.
  - eapply Q; [exact HS0|reflexivity|cbn; lia|]. cbn. congruence.
Qed.

Lemma stuck_returned v0 l v : reaches c E iter mk v0 l v -> (forall r, ~ vrun_step c E iter mk l v r) ->
  returned iter l /\ Forall finished l.
Proof.
  intros HR Hst. pose proof HR as HR0. unfold reaches in HR. destruct (Nat.eqb_spec iter 0) as [E0|Hi].
  { destruct HR as (-> & _). split; [split; auto|constructor]. }
  destruct HR as (n & H). apply vruns_runs in H.
  destruct (run_lemma c iter mk n l (fun _ => Hx) ltac:(lia) H) as (RI & _).
  destruct (run_progress c iter mk l RI Hg) as (L & F).
  - intros l' HS. destruct HS as [l1 s s' l2 HS|l0 s Hm Hlt].
    + destruct (reach_good c E iter x Hx v0 _ v HR0) as (G & _). apply Forall_app in G. destruct G as (_ & G). inversion G as [|? ? G0 _]; subst.
      destruct (step_vstep _ _ _ v (proj1 G0) HS) as (r & Hr). eapply Hst. constructor. exact Hr.
    + eapply Hst. eapply vr_next; eauto.
  - split; [|exact F]. split; [exact L|]. right. destruct (exists_last (l := l)) as (l0 & s & ->); [destruct l; cbn in L; [lia|discriminate]|].
    exists l0, s. split; auto. apply Forall_app in F. destruct F as (_ & F). inversion F as [|? ? (Hm & _) _]; subst. exact Hm.
Qed.

Lemma reach_bound v0 l v n : iter <> 0 -> vruns c E iter mk n [init c (mk 0)] v0 l v -> n <= iter * S (mu (init c x)).
Proof.
  intros Hi H. apply vruns_runs in H. destruct (run_lemma c iter mk n l (fun _ => Hx) ltac:(lia) H) as (_ & B).
  unfold mk in B. rewrite sum_const, seq_length in B. exact B.
Qed.

(** Some maximal execution: it fails, or it returns. *)
Lemma some_end v0 : (exists v, trains c E iter mk v0 v) \/
  (exists l v r, reaches c E iter mk v0 l v /\ vrun_step c E iter mk l v r /\ forall p, r <> Ret p).
Proof.
  destruct (Nat.eq_dec iter 0) as [E0|Hi].
  { left. exists v0, []. rewrite E0. split; [split; reflexivity|]. split; auto. }
  assert (RE : forall n l v, vruns c E iter mk n [init c (mk 0)] v0 l v -> reaches c E iter mk v0 l v).
  { intros n l v H. unfold reaches. destruct (Nat.eqb_spec iter 0); [contradiction|]. exists n. exact H. }
  assert (G : forall k n l v, vruns c E iter mk n [init c (mk 0)] v0 l v -> iter * S (mu (init c x)) - n <= k ->
    ~ ~ ((exists v, trains c E iter mk v0 v) \/ (exists l v r, reaches c E iter mk v0 l v /\ vrun_step c E iter mk l v r /\ forall p, r <> Ret p))).
  { induction k as [|k IH]; intros n l v H Hk Hno.
    - assert (Hst : forall r, ~ vrun_step c E iter mk l v r).
      { intros r Hr. destruct r as [[l' v']| |].
        - pose proof (reach_bound v0 l' v' (S n) Hi ltac:(econstructor; eauto)). lia.
        - apply Hno. right. exists l, v, (Err e). split; [eapply RE; eauto|]. split; auto. discriminate.
        - apply Hno. right. exists l, v, Panic. split; [eapply RE; eauto|]. split; auto. discriminate. }
      apply Hno. left. exists v, l. split; [eapply RE; eauto|]. apply (stuck_returned v0 l v (RE _ _ _ H) Hst).
    - assert (Hst : forall r, ~ vrun_step c E iter mk l v r).
      { intros r Hr. destruct r as [[l' v']| |].
        - eapply (IH (S n) l' v'); [econstructor; eauto|lia|exact Hno].
        - apply Hno. right. exists l, v, (Err e). split; [eapply RE; eauto|]. split; auto. discriminate.
        - apply Hno. right. exists l, v, Panic. split; [eapply RE; eauto|]. split; auto. discriminate. }
      apply Hno. left. exists v, l. split; [eapply RE; eauto|]. apply (stuck_returned v0 l v (RE _ _ _ H) Hst). }
  destruct (Classical_Prop.classic ((exists v, trains c E iter mk v0 v) \/ (exists l v r, reaches c E iter mk v0 l v /\ vrun_step c E iter mk l v r /\ forall p, r <> Ret p))) as [H|H]; [exact H|].
  exfalso. eapply (G (iter * S (mu (init c x))) 0 [init c (mk 0)] v0); [constructor|lia|exact H].
Qed.
End Progress.
