(** Runs in which every handled item is one deterministic step: the values are those of handling the
    items one after the other in the order of the logs. *)
From Coq Require Import Permutation Lia.
From Verif.Lib Require Import Go F64 ListFacts Tac.
From Verif.Spec Require Import Slices Sched Training Runs Interleave.
From Verif.Model Require Import Sched Run.
From Verif.Proofs Require Import Sched SchedRun Run RunOne.
Local Open Scope nat_scope.

Section Linear.
Context {A X : Type}.
Variables (c : cfg) (E : effects A X) (f : A -> X -> outcome X).
Hypothesis Htrial : forall y v, e_trial E y v = Ret (v, true).
Hypothesis Hwork : forall d pos y v r, nth_error d pos = Some y -> e_work E d pos v r -> r = f y v.
Hypothesis Htick : forall n v, e_tick E n v = Ret v.

Definition handled (l : list (st A)) : list A := concat (map (fun s => map snd (log s)) l).

Lemma vstep_linear chunks s v s' v' : good_st c chunks s -> vstep c E s v (Ret (s', v')) ->
  exists new, map snd (log s') = map snd (log s) ++ new /\ ofold f new v = Ret v' /\ (new <> [] -> main s <> MDone).
Proof.
  intros (I & B) H.
  assert (K : forall i d w y t, nth_error (wks s) i = Some (Worker d w) -> w = WRun (y :: t) \/ w = WHold y t ->
    nth_error d (length d - S (length t)) = Some y /\ main s <> MDone).
  { intros i d w y t Hi Hw. split; [apply (worker_at c chunks s i d w y t I Hi Hw)|]. intros Hm.
    destruct (done_all c chunks s I Hm) as (_ & HF & _). rewrite Forall_forall in HF. specialize (HF _ (nth_error_In _ _ Hi)).
    destruct Hw as [-> | ->]; discriminate HF. }
  inversion H; subst.
  - match goal with Q : quiet _ _ |- _ => destruct Q as (EQ & _) end. exists []. rewrite EQ, app_nil_r. split; [reflexivity|]. split; [reflexivity|]. intros N; elim N; reflexivity.
  - match goal with T : e_trial E _ _ = Ret (_, false) |- _ => rewrite Htrial in T; discriminate T end.
  - match goal with T : e_trial E _ _ = Ret (_, true) |- _ => rewrite Htrial in T; injection T as <- end.
    exists []. cbn [log]. rewrite app_nil_r. split; [reflexivity|]. split; [reflexivity|]. intros N; elim N; reflexivity.
  - destruct (e_trial E x v); discriminate.
  - match goal with Hi : nth_error (wks s) i = _ |- _ => destruct (K _ _ _ _ _ Hi (or_intror eq_refl)) as (Ky & Km) end.
    match goal with W : e_work E _ _ _ _ |- _ => pose proof (Hwork _ _ _ _ _ Ky W) as Er end.
    destruct r as [v1| |]; try discriminate. match goal with R : obind _ _ = Ret _ |- _ => cbn [obind] in R; injection R as <- <- end.
    exists [x]. cbn [log]. rewrite map_app. split; [reflexivity|]. split; [cbn [ofold]; rewrite <- Er; reflexivity|]. intros _. exact Km.
  - match goal with Hi : nth_error (wks s) i = _ |- _ => destruct (K _ _ _ _ _ Hi (or_introl eq_refl)) as (Ky & Km) end.
    match goal with T : e_trial E _ _ = Ret (_, true) |- _ => rewrite Htrial in T; injection T as <- end.
    match goal with W : e_work E _ _ _ _ |- _ => pose proof (Hwork _ _ _ _ _ Ky W) as Er end.
    destruct r as [v1'| |]; try discriminate. match goal with R : obind _ _ = Ret _ |- _ => cbn [obind] in R; injection R as <- <- end.
    exists [x]. cbn [log]. rewrite map_app. split; [reflexivity|]. split; [cbn [ofold]; rewrite <- Er; reflexivity|]. intros _. exact Km.
  - rewrite Htick in *. match goal with R : obind _ _ = Ret _ |- _ => cbn [obind] in R; injection R as <- <- end.
    exists []. cbn [log]. rewrite app_nil_r. split; [reflexivity|]. split; [reflexivity|]. intros N; elim N; reflexivity.
Qed.

Lemma handled_app l1 l2 : handled (l1 ++ l2) = handled l1 ++ handled l2.
Proof. unfold handled. rewrite map_app, concat_app. reflexivity. Qed.

Lemma reaches_linear iter x v0 l v : src_ok x -> reaches c E iter (fun _ => x) v0 l v -> ofold f (handled l) v0 = Ret v.
Proof.
  intros Hx. unfold reaches. destruct (Nat.eqb_spec iter 0) as [->|Hi].
  { intros (-> & ->). reflexivity. }
  intros (n & H). remember [init c x] as l0 eqn:E0.
  induction H as [l0 v0|n l0 v0 l v l' v' HR IH HS].
  { subst. reflexivity. }
  specialize (IH E0). subst l0.
  assert (RR : reaches c E iter (fun _ => x) v0 l v) by (unfold reaches; destruct (Nat.eqb_spec iter 0); [contradiction|]; exists n; exact HR).
  destruct (reach_good c E iter x Hx v0 l v RR) as (G & _ & D).
  inversion HS; subst.
  - destruct r as [[s' v1]| |]; try discriminate. match goal with R : obind _ _ = Ret _ |- _ => cbn [obind] in R; injection R as <- <- end.
    pose proof (Forall_elt _ _ _ G) as Gs.
    match goal with H : vstep _ _ _ _ _ |- _ => destruct (vstep_linear _ _ _ _ _ Gs H) as (new & EL & EF & EM) end.
    assert (T : handled (l1 ++ s' :: l2) = handled (l1 ++ s :: l2) ++ new).
    { destruct new as [|y new].
      - rewrite app_nil_r in EL |- *. rewrite !handled_app. f_equal. unfold handled. cbn [map concat]. rewrite EL. reflexivity.
      - destruct l2 as [|s2 l2].
        + rewrite !handled_app, <- app_assoc. f_equal. unfold handled. cbn [map concat]. rewrite EL, !app_nil_r. reflexivity.
        + exfalso. apply EM; [discriminate|]. eapply (D l1 s (s2 :: l2)); [reflexivity|discriminate]. }
    rewrite T, ofold_app, IH. exact EF.
  - match goal with |- ofold f (handled (?a ++ [?b; ?d])) _ = _ => change (a ++ [b; d]) with (a ++ [b] ++ [d]) end.
    rewrite app_assoc, handled_app, ofold_app, IH. reflexivity.
Qed.

(** All passes are complete when training has returned. *)
Lemma trains_linear iter x v0 v : src_ok x -> trains c E iter (fun _ => x) v0 v ->
  exists ps : list (list (nat * A)), length ps = iter /\
    Forall (interleaves (pending x)) ps /\
    ofold f (concat (map (map snd) ps)) v0 = Ret v.
Proof.
  intros Hx (l & HR & (HL & HD)). destruct (reach_good c E iter x Hx v0 l v HR) as (G & _ & D).
  exists (map (@log A) l). rewrite map_length. split; [exact HL|]. split.
  - apply Forall_forall. intros p Hp. apply in_map_iff in Hp. destruct Hp as (s & <- & Hs).
    apply in_split in Hs. destruct Hs as (l1 & l2 & ->).
    assert (Hm : main s = MDone).
    { destruct l2 as [|s2 l2]; [|eapply (D l1 s (s2 :: l2)); [reflexivity|discriminate]].
      destruct HD as [HD|(l0 & s0 & E0 & Hm)]; [exfalso; rewrite app_length in HL; cbn in HL; lia|].
      apply app_inj_tail in E0. destruct E0 as (_ & ->). exact Hm. }
    apply Forall_elt in G. destruct G as (I & _).
    destruct (done_lemma c _ s I Hm) as (H0 & H1 & _). split; [|exact H1].
    rewrite <- H0, map_length. exact (i_idx _ _ _ I).
  - rewrite map_map. exact (reaches_linear iter x v0 l v Hx HR).
Qed.
End Linear.

Lemma interleaves_perm {A} (slices : list (list A)) p : interleaves slices p -> Permutation (map snd p) (concat slices).
Proof.
  intros (HI & HB). rewrite (filter_split _ _ HI).
  match goal with |- Permutation (concat ?a) (concat ?b) => assert (EQ : a = b); [|rewrite EQ; reflexivity] end.
  apply nth_ext_error. intros i. rewrite nth_error_map. destruct (nth_error slices i) as [d|] eqn:Ei.
  - assert (Hi : i < length slices) by (apply nth_error_Some; congruence).
    rewrite (nth_error_nth' _ 0) by (rewrite seq_length; exact Hi). rewrite seq_nth by exact Hi. cbn [option_map plus]. rewrite (HB i d Ei). reflexivity.
  - apply nth_error_None in Ei. rewrite (proj2 (nth_error_None _ _)); [reflexivity|]. rewrite seq_length. exact Ei.
Qed.
