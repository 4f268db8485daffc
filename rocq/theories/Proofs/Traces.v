(** Every run of the goroutines is a sequence of actions as in Spec/Traces.v. *)
From Coq Require Import Permutation Lia.
From Verif.Lib Require Import Go F64 ListFacts Tac.
From Verif.Spec Require Import Slices Sched Training Runs Traces.
From Verif.Model Require Import Sched Run.
From Verif.Proofs Require Import Sched SchedRun Run RunOne.
Local Open Scope nat_scope.

Section Traces.
Context {A X : Type}.
Variables (c : cfg) (E : effects A X) (chunks : list (list A)) (f : list A -> nat -> X -> outcome X).
Hypothesis Hwork : forall d pos v r, In d chunks -> e_work E d pos v r -> r = f d pos v.

Notation act1 := (act chunks (e_trial E) f (e_tick E)).

Definition holding (s : st A) (i : nat) : bool :=
  match nth_error (wks s) i with Some (Worker _ (WHold _ _)) => true | _ => false end.
Definition nth_word (s : st A) (i : nat) : nat := length (by_worker i (log s)).
Definition updates (s : st A) : nat := match obs s with OBusy n => pred n | ORecv n | OEnd n => n end.

(** One step: the new actions, what they do, and how the state moves. *)
Inductive moves (k : nat) (s s' : st A) : list action -> Prop :=
| mv_none : (forall i, holding s' i = holding s i) -> log s' = log s -> updates s' = updates s -> moves k s s' []
| mv_skip i x : i < length chunks -> holding s i = false -> (forall j, holding s' j = holding s j) -> log s' = log s ++ [(i, x)] -> updates s' = updates s ->
    main s <> MDone -> moves k s s' [Draw k i (nth_word s i) false]
| mv_take i : i < length chunks -> holding s i = false -> (forall j, holding s' j = if j =? i then true else holding s j) -> log s' = log s -> updates s' = updates s ->
    main s <> MDone -> moves k s s' [Draw k i (nth_word s i) true]
| mv_give i x : i < length chunks -> holding s i = true -> (forall j, holding s' j = if j =? i then false else holding s j) -> log s' = log s ++ [(i, x)] -> updates s' = updates s ->
    main s <> MDone -> moves k s s' [Train k i (nth_word s i)]
| mv_train i x : i < length chunks -> holding s i = false -> (forall j, holding s' j = holding s j) -> log s' = log s ++ [(i, x)] -> updates s' = updates s ->
    main s <> MDone -> moves k s s' [Draw k i (nth_word s i) true; Train k i (nth_word s i)]
| mv_rate : (forall i, holding s' i = holding s i) -> log s' = log s -> updates s' = S (updates s) -> moves k s s' [Rate k (S (updates s))].

Lemma holding_set s i d w w' j src' main' obs' sem' pool' wg' tc' cr' lg' : nth_error (wks s) i = Some (Worker d w) ->
  holding (St src' main' (set_w s i w') obs' sem' pool' wg' tc' cr' lg') j =
  if j =? i then match w' with WHold _ _ => true | _ => false end else holding s j.
Proof.
  intros Hi. unfold holding. cbn [wks]. rewrite (set_w_eq s i d w w' Hi).
  destruct (Nat.eqb_spec j i) as [->|N].
  - rewrite upd_nth_error_eq; [reflexivity|]. apply nth_error_Some. congruence.
  - rewrite upd_nth_error_neq by auto. reflexivity.
Qed.

Lemma holding_at s i d w : nth_error (wks s) i = Some (Worker d w) -> holding s i = match w with WHold _ _ => true | _ => false end.
Proof. intros H. unfold holding. rewrite H. destruct w; reflexivity. Qed.

Lemma holding_same s i d w w' src' main' obs' sem' pool' wg' tc' cr' lg' : nth_error (wks s) i = Some (Worker d w) ->
  match w with WHold _ _ => true | _ => false end = match w' with WHold _ _ => true | _ => false end ->
  forall j, holding (St src' main' (set_w s i w') obs' sem' pool' wg' tc' cr' lg') j = holding s j.
Proof.
  intros H1 H2 j. rewrite (holding_set s i d w w' j) by exact H1. destruct (Nat.eqb_spec j i) as [->|N]; [|reflexivity].
  rewrite (holding_at s i d w H1). auto.
Qed.

Lemma holding_spawn s d src' main' obs' sem' pool' wg' tc' cr' lg' j :
  holding (St src' main' (wks s ++ [Worker d WNew]) obs' sem' pool' wg' tc' cr' lg') j = holding s j.
Proof.
  unfold holding. cbn [wks]. destruct (Nat.lt_ge_cases j (length (wks s))) as [L|L].
  - rewrite nth_error_app1 by exact L. reflexivity.
  - rewrite nth_error_app2 by exact L. rewrite (proj2 (nth_error_None (wks s) j)) by exact L.
    destruct (j - length (wks s)) as [|m]; [reflexivity|]. cbn. destruct m; reflexivity.
Qed.

Lemma log_grows (lg : list (nat * A)) p : lg ++ [p] = lg -> False.
Proof. intros H. apply (f_equal (@length _)) in H. rewrite app_length in H. cbn in H. lia. Qed.

Lemma quiet_moves k s s' : step c s s' -> quiet s s' -> moves k s s' [].
Proof.
  intros H (QL & QP & QO).
  assert (HU : forall a b c0 d0 e f0 g h i0 j, (forall n, obs s = OBusy n -> d0 = OBusy n) -> d0 = obs s -> updates (@St A a b c0 d0 e f0 g h i0 j) = updates s).
  { intros. unfold updates. cbn [obs]. subst. reflexivity. }
  inversion H; subst; cbn [log pool obs] in QL, QP, QO; try (exfalso; eapply log_grows; exact QL);
    try (apply mv_none; [|reflexivity|try (unfold updates; cbn [obs]; reflexivity)];
         first [ intros j; reflexivity
               | intros j; apply holding_spawn
               | match goal with W : nth_error (wks s) _ = Some _ |- _ => eapply holding_same; [exact W|reflexivity] end
               | match goal with W : at_w s _ _ |- _ => destruct W as (dd & W); eapply holding_same; [exact W|reflexivity] end
               | idtac ]; fail).
  - exfalso. lia.
  - match goal with W : at_w s _ _ |- _ => destruct W as (dd & HW) end.
    apply mv_none; [eapply holding_same; [exact HW|reflexivity]|reflexivity|].
    unfold updates. cbn [obs]. match goal with O : obs s = ORecv _ |- _ => rewrite O end. reflexivity.
  - exfalso. match goal with O : obs s = OBusy ?n |- _ => specialize (QO n O); discriminate QO end.
  - apply mv_none; [intros j; reflexivity|reflexivity|]. unfold updates. cbn [obs]. match goal with O : obs s = ORecv _ |- _ => rewrite O end. reflexivity.
Qed.

Lemma vstep_moves k s v s' v' : good_st c chunks s -> vstep c E s v (Ret (s', v')) ->
  exists new, moves k s s' new /\ ofold act1 new v = Ret v'.
Proof.
  intros (I & B) H.
  assert (K : forall i d w y t, nth_error (wks s) i = Some (Worker d w) -> w = WRun (y :: t) \/ w = WHold y t ->
    nth_error d (length d - S (length t)) = Some y /\ main s <> MDone /\ nth_error chunks i = Some d /\ i < length chunks /\ length d - S (length t) = nth_word s i).
  { intros i d w y t Hi Hw. split; [apply (worker_at c chunks s i d w y t I Hi Hw)|]. split; [|split; [|split]].
    - intros Hm. destruct (done_all c chunks s I Hm) as (_ & HF & _). rewrite Forall_forall in HF. specialize (HF _ (nth_error_In _ _ Hi)).
      destruct Hw as [-> | ->]; discriminate HF.
    - rewrite <- (i_chunks _ _ _ I). rewrite nth_error_app1 by (rewrite map_length; apply nth_error_Some; congruence).
      rewrite nth_error_map, Hi. reflexivity.
    - rewrite <- (i_chunks _ _ _ I). rewrite app_length, map_length. assert (i < length (wks s)) by (apply nth_error_Some; congruence). lia.
    - pose proof (i_log _ _ _ I i _ Hi) as HL. unfold nth_word. apply (f_equal (@length _)) in HL. rewrite app_length in HL. cbn [w_doc] in HL.
      destruct Hw as [-> | ->]; cbn [remaining w_at length] in HL; lia. }
  assert (KI : forall i d, nth_error chunks i = Some d -> In d chunks) by (intros i d Hd; eapply nth_error_In; exact Hd).
  inversion H; subst.
  - exists []. split; [apply quiet_moves; assumption|reflexivity].
  - match goal with Hi : nth_error (wks s) i = _ |- _ => destruct (K _ _ _ _ _ Hi (or_introl eq_refl)) as (Ky & Km & Kd & Kl & Kn); rename Hi into HW end.
    exists [Draw k i (nth_word s i) false]. split.
    + eapply mv_skip; auto; [rewrite (holding_at _ _ _ _ HW); reflexivity|eapply holding_same; [exact HW|reflexivity]|cbn [log]; reflexivity].
    + cbn [ofold act]. rewrite Kd, <- Kn, Ky. match goal with T : e_trial E _ _ = _ |- _ => rewrite T end. reflexivity.
  - match goal with Hi : nth_error (wks s) i = _ |- _ => destruct (K _ _ _ _ _ Hi (or_introl eq_refl)) as (Ky & Km & Kd & Kl & Kn); rename Hi into HW end.
    exists [Draw k i (nth_word s i) true]. split.
    + eapply mv_take; auto; [rewrite (holding_at _ _ _ _ HW); reflexivity|intros j; rewrite (holding_set s i d _ _ j) by exact HW; reflexivity].
    + cbn [ofold act]. rewrite Kd, <- Kn, Ky. match goal with T : e_trial E _ _ = _ |- _ => rewrite T end. reflexivity.
  - destruct (e_trial E x v); discriminate.
  - match goal with Hi : nth_error (wks s) i = _ |- _ => destruct (K _ _ _ _ _ Hi (or_intror eq_refl)) as (Ky & Km & Kd & Kl & Kn); rename Hi into HW end.
    match goal with W : e_work E _ _ _ _ |- _ => pose proof (Hwork _ _ _ _ (KI _ _ Kd) W) as Er end.
    destruct r as [v1| |]; try discriminate. match goal with R : obind _ _ = Ret _ |- _ => cbn [obind] in R; injection R as <- <- end.
    exists [Train k i (nth_word s i)]. split.
    + eapply mv_give; auto; [rewrite (holding_at _ _ _ _ HW); reflexivity|intros j; rewrite (holding_set s i d _ _ j) by exact HW; reflexivity|cbn [log]; reflexivity].
    + cbn [ofold act]. rewrite Kd, <- Kn, <- Er. reflexivity.
  - match goal with Hi : nth_error (wks s) i = _ |- _ => destruct (K _ _ _ _ _ Hi (or_introl eq_refl)) as (Ky & Km & Kd & Kl & Kn); rename Hi into HW end.
    match goal with W : e_work E _ _ _ _ |- _ => pose proof (Hwork _ _ _ _ (KI _ _ Kd) W) as Er end.
    destruct r as [v1'| |]; try discriminate. match goal with R : obind _ _ = Ret _ |- _ => cbn [obind] in R; injection R as <- <- end.
    exists [Draw k i (nth_word s i) true; Train k i (nth_word s i)]. split.
    + eapply mv_train; auto; [rewrite (holding_at _ _ _ _ HW); reflexivity|eapply holding_same; [exact HW|reflexivity]|cbn [log]; reflexivity].
    + cbn [ofold act]. rewrite Kd, <- Kn, Ky. match goal with T : e_trial E _ _ = _ |- _ => rewrite T end. cbn [obind Bool.eqb]. rewrite <- Er. reflexivity.
  - destruct (e_tick E n v) as [v1| |] eqn:Et; try discriminate. match goal with R : obind _ _ = Ret _ |- _ => cbn [obind] in R; injection R as <- <- end.
    match goal with O : obs s = OBusy n |- _ => pose proof (B n O) as Hn; assert (En : n = S (updates s)) by (unfold updates; rewrite O; lia) end.
    exists [Rate k (S (updates s))]. split.
    + apply mv_rate; [intros j; reflexivity|reflexivity|]. unfold updates at 1. cbn [obs]. exact En.
    + cbn [ofold act]. rewrite <- En, Et. reflexivity.
Qed.

(** ** The invariant of whole runs *)
Definition pass (a : action) : nat := match a with Draw k _ _ _ | Train k _ _ | Rate k _ => k end.
Definition known (a : action) : Prop := match a with Draw _ i _ _ | Train _ i _ => i < length chunks | Rate _ _ => True end.
Definition in_time (es : list action) : Prop := forall k, length (rates k es) <= handled k es <= length (rates k es) + c_g c + 1.

Record tinv (v0 : X) (l : list (st A)) (v : X) (es : list action) : Prop := {
  t_val : ofold act1 es v0 = Ret v;
  t_pass : forall a, In a es -> pass a < length l /\ known a;
  t_word : forall k s i, nth_error l k = Some s -> exists bs, length bs = nth_word s i /\
    actions_of k i es = script k i 0 bs ++ if holding s i then [Draw k i (nth_word s i) true] else [];
  t_rate : forall k s, nth_error l k = Some s -> rates k es = map (Rate k) (seq 1 (updates s));
  t_handled : forall k s, nth_error l k = Some s -> handled k es = length (log s);
  t_order : forall es1 a es2 b es3 k k', es = es1 ++ a :: es2 ++ b :: es3 -> pass_of a = Some k -> pass_of b = Some k' -> k <= k';
  t_lag : forall es1 es2, es = es1 ++ es2 -> in_time es1 }.

Lemma script_app k i : forall bs pos bs', script k i pos (bs ++ bs') = script k i pos bs ++ script k i (pos + length bs) bs'.
Proof.
  induction bs as [|b bs IH]; intros pos bs'; cbn [app script length]; [rewrite Nat.add_0_r; reflexivity|].
  rewrite IH, <- app_assoc. rewrite <- Nat.add_succ_comm. reflexivity.
Qed.

Lemma filter_none {B} (p : B -> bool) l : (forall a, In a l -> p a = false) -> filter p l = [].
Proof.
  induction l as [|a l IH]; intros H; [reflexivity|]. cbn [filter]. rewrite (H a (or_introl eq_refl)). apply IH. intros b Hb. apply H. right. exact Hb.
Qed.

Lemma lag_of s : good_st c chunks s -> updates s <= length (log s) <= updates s + c_g c + 1.
Proof.
  intros (I & B). pose proof (i_obs _ _ _ I) as HO. pose proof (i_sem _ _ _ I) as HS. pose proof (i_semle _ _ _ I) as HL.
  assert (cnt in_send (wks s) <= cnt holds_sem (wks s)) by (apply cnt_le; intros []; cbn; congruence).
  unfold updates. destruct (obs s) eqn:O; cbn [ticks] in HO; try lia.
Qed.

Lemma prefix_app {B} : forall (l1 l2 es : list B) a, es ++ [a] = l1 ++ l2 -> l2 = [] \/ exists l3, l2 = l3 ++ [a] /\ es = l1 ++ l3.
Proof.
  intros l1 l2 es a H. destruct l2 as [|b l2 _] using rev_ind.
  - left. reflexivity.
  - right. rewrite app_assoc in H. apply app_inj_tail in H. destruct H as (-> & ->). eauto.
Qed.

(** All but the values and the lag follow from the shape of the step. *)
Definition sinv (l : list (st A)) (es : list action) : Prop :=
  (forall a, In a es -> pass a < length l /\ known a) /\
  (forall k s i, nth_error l k = Some s -> exists bs, length bs = nth_word s i /\
    actions_of k i es = script k i 0 bs ++ if holding s i then [Draw k i (nth_word s i) true] else []) /\
  (forall k s, nth_error l k = Some s -> rates k es = map (Rate k) (seq 1 (updates s))) /\
  (forall k s, nth_error l k = Some s -> handled k es = length (log s)) /\
  (forall es1 a es2 b es3 k k', es = es1 ++ a :: es2 ++ b :: es3 -> pass_of a = Some k -> pass_of b = Some k' -> k <= k').

Lemma order_app (es new : list action) n : (forall a, In a es -> pass a <= n) -> (forall a, In a new -> pass a = n) ->
  (forall es1 a es2 b es3 k k', es = es1 ++ a :: es2 ++ b :: es3 -> pass_of a = Some k -> pass_of b = Some k' -> k <= k') ->
  (forall es1 a es2 b es3 k k', es ++ new = es1 ++ a :: es2 ++ b :: es3 -> pass_of a = Some k -> pass_of b = Some k' -> k <= k').
Proof.
  intros HE HN HO es1 a es2 b es3 k k' H Ha Hb.
  assert (PO : forall x j, pass_of x = Some j -> pass x = j) by (intros [] j Hj; cbn in *; congruence).
  pose proof (PO _ _ Ha) as Pa. pose proof (PO _ _ Hb) as Pb.
  assert (Ia : pass a <= n).
  { assert (Hin : In a (es ++ new)) by (rewrite H; apply in_elt). apply in_app_or in Hin. destruct Hin as [Hin|Hin]; [auto|]. rewrite (HN _ Hin). lia. }
  (* b is in new, or everything up to b is in es *)
  revert new HN es3 H. refine (rev_ind _ _ _).
  - intros _ es3 H. rewrite app_nil_r in H. eapply HO; eauto.
  - intros x new IH HN es3 H. destruct es3 as [|y es3 _] using rev_ind.
    + rewrite app_assoc in H. replace (es1 ++ a :: es2 ++ [b]) with ((es1 ++ a :: es2) ++ [b]) in H by (rewrite <- app_assoc; reflexivity).
      apply app_inj_tail in H. destruct H as (_ & <-). rewrite <- Pa, <- Pb, (HN x) by (apply in_or_app; right; left; reflexivity). exact Ia.
    + rewrite app_assoc in H. replace (es1 ++ a :: es2 ++ b :: es3 ++ [y]) with ((es1 ++ a :: es2 ++ b :: es3) ++ [y]) in H.
      2:{ rewrite <- app_assoc. cbn [app]. rewrite <- app_assoc. reflexivity. }
      apply app_inj_tail in H. destruct H as (H & _). apply (IH ltac:(intros z Hz; apply HN, in_or_app; left; exact Hz) es3 H).
Qed.

Lemma order_rate (es : list action) k0 n : 
  (forall es1 a es2 b es3 k k', es = es1 ++ a :: es2 ++ b :: es3 -> pass_of a = Some k -> pass_of b = Some k' -> k <= k') ->
  (forall es1 a es2 b es3 k k', es ++ [Rate k0 n] = es1 ++ a :: es2 ++ b :: es3 -> pass_of a = Some k -> pass_of b = Some k' -> k <= k').
Proof.
  intros HO es1 a es2 b es3 k k' H Ha Hb. destruct es3 as [|y es3 _] using rev_ind.
  - replace (es1 ++ a :: es2 ++ [b]) with ((es1 ++ a :: es2) ++ [b]) in H by (rewrite <- app_assoc; reflexivity).
    apply app_inj_tail in H. destruct H as (_ & <-). discriminate Hb.
  - replace (es1 ++ a :: es2 ++ b :: es3 ++ [y]) with ((es1 ++ a :: es2 ++ b :: es3) ++ [y]) in H.
    2:{ rewrite <- app_assoc. cbn [app]. rewrite <- app_assoc. reflexivity. }
    apply app_inj_tail in H. destruct H as (H & _). eapply HO; eauto.
Qed.

Lemma moves_pass k s s' new : moves k s s' new -> forall a, In a new -> pass a = k /\ known a.
Proof. intros H a Ha. inversion H; subst; cbn [In] in Ha; intuition (subst; auto; try reflexivity); exact I. Qed.

Lemma moves_other k s s' new : moves k s s' new -> forall k', k' <> k ->
  (forall i, actions_of k' i new = []) /\ rates k' new = [] /\ handled k' new = 0.
Proof.
  intros H k' N. assert (B : (k =? k') = false) by (apply Nat.eqb_neq; auto).
  split; [|split]; intros; unfold actions_of, rates, handled; inversion H; subst; cbn [filter is_by is_rate handles]; rewrite ?B; reflexivity.
Qed.

Lemma nth_word_log s s' i x j : log s' = log s ++ [(i, x)] -> nth_word s' j = if j =? i then S (nth_word s j) else nth_word s j.
Proof.
  intros H. unfold nth_word. rewrite H, by_worker_app, app_length. rewrite (Nat.eqb_sym i j). destruct (j =? i); cbn; lia.
Qed.

Lemma moves_word k s s' new i : moves k s s' new -> forall es,
  (exists bs, length bs = nth_word s i /\ actions_of k i es = script k i 0 bs ++ if holding s i then [Draw k i (nth_word s i) true] else []) ->
  exists bs, length bs = nth_word s' i /\ actions_of k i (es ++ new) = script k i 0 bs ++ if holding s' i then [Draw k i (nth_word s' i) true] else [].
Proof.
  intros H es (bs & L & Hb). unfold actions_of in *. rewrite filter_app, Hb.
  inversion H as [HH HL HU|i0 x Hi H0 HH HL HU HM|i0 Hi H0 HH HL HU HM|i0 x Hi H0 HH HL HU HM|i0 x Hi H0 HH HL HU HM|HH HL HU]; subst; cbn [filter is_by];
    rewrite ?Nat.eqb_refl; cbn [andb]; rewrite ?(HH i).
  - exists bs. unfold nth_word in *. rewrite HL, app_nil_r. auto.
  - rewrite (nth_word_log _ _ _ _ i HL), (Nat.eqb_sym i0 i). destruct (Nat.eqb_spec i i0) as [->|N].
    + exists (bs ++ [false]). rewrite H0, app_length, script_app, L. cbn [length script app]. rewrite Nat.add_1_r, !app_nil_r. auto.
    + exists bs. rewrite app_nil_r. auto.
  - assert (W : nth_word s' i = nth_word s i) by (unfold nth_word; rewrite HL; reflexivity). rewrite W, (Nat.eqb_sym i0 i). destruct (Nat.eqb_spec i i0) as [->|N].
    + exists bs. rewrite H0, app_nil_r. auto.
    + exists bs. rewrite app_nil_r. auto.
  - rewrite (nth_word_log _ _ _ _ i HL), (Nat.eqb_sym i0 i). destruct (Nat.eqb_spec i i0) as [->|N].
    + exists (bs ++ [true]). rewrite H0, app_length, script_app, L. cbn [length script app]. rewrite Nat.add_1_r, !app_nil_r, <- app_assoc. auto.
    + exists bs. rewrite app_nil_r. auto.
  - rewrite (nth_word_log _ _ _ _ i HL), (Nat.eqb_sym i0 i). destruct (Nat.eqb_spec i i0) as [->|N].
    + exists (bs ++ [true]). rewrite H0, app_length, script_app, L. cbn [length script app]. rewrite Nat.add_1_r, !app_nil_r. auto.
    + exists bs. rewrite app_nil_r. auto.
  - exists bs. unfold nth_word in *. rewrite HL, app_nil_r. auto.
Qed.

Lemma moves_rate k s s' new es : moves k s s' new -> rates k es = map (Rate k) (seq 1 (updates s)) -> rates k (es ++ new) = map (Rate k) (seq 1 (updates s')).
Proof.
  intros H HR. unfold rates in *. rewrite filter_app, HR.
  inversion H as [HH HL HU|i0 x Hi H0 HH HL HU HM|i0 Hi H0 HH HL HU HM|i0 x Hi H0 HH HL HU HM|i0 x Hi H0 HH HL HU HM|HH HL HU]; subst; cbn [filter is_rate];
    rewrite ?HU, ?app_nil_r; auto.
  rewrite Nat.eqb_refl. rewrite seq_S, map_app. reflexivity.
Qed.

Lemma moves_handled k s s' new es : moves k s s' new -> handled k es = length (log s) -> handled k (es ++ new) = length (log s').
Proof.
  intros H HR. unfold handled in *. rewrite filter_app, app_length, HR.
  inversion H as [HH HL HU|i0 x Hi H0 HH HL HU HM|i0 Hi H0 HH HL HU HM|i0 x Hi H0 HH HL HU HM|i0 x Hi H0 HH HL HU HM|HH HL HU]; subst; cbn [filter handles];
    rewrite ?Nat.eqb_refl, ?HL; cbn [andb negb length]; rewrite ?app_length; cbn [length]; lia.
Qed.

Lemma sinv_move l1 s s' l2 es new : moves (length l1) s s' new -> (main s <> MDone -> l2 = []) ->
  sinv (l1 ++ s :: l2) es -> sinv (l1 ++ s' :: l2) (es ++ new).
Proof.
  intros HM HD (H1 & H2 & H3 & H4 & H5).
  assert (NT : forall k t, nth_error (l1 ++ s' :: l2) k = Some t -> (k = length l1 /\ t = s') \/ (k <> length l1 /\ nth_error (l1 ++ s :: l2) k = Some t)).
  { intros k t Hk. destruct (Nat.eq_dec k (length l1)) as [->|N].
    - left. rewrite nth_len in Hk. injection Hk as <-. auto.
    - right. split; [exact N|]. destruct (Nat.lt_ge_cases k (length l1)) as [L|L].
      + rewrite nth_error_app1 in * by exact L. exact Hk.
      + rewrite nth_error_app2 in * by exact L. destruct (k - length l1) eqn:Q; [lia|]. exact Hk. }
  pose proof (nth_len l1 l2 s) as NS.
  repeat split.
  - apply in_app_or in H. destruct H as [H|H]; [destruct (H1 a H) as (P & _); rewrite app_length in *; cbn [length] in *; exact P|].
    destruct (moves_pass _ _ _ _ HM a H) as (-> & _). rewrite app_length. cbn. lia.
  - apply in_app_or in H. destruct H as [H|H]; [apply (H1 a H)|]. apply (moves_pass _ _ _ _ HM a H).
  - intros k t i Hk. destruct (NT k t Hk) as [(-> & ->)|(N & Hk')].
    + eapply moves_word; eauto.
    + unfold actions_of. rewrite filter_app. destruct (moves_other _ _ _ _ HM k N) as (O & _). unfold actions_of in O. rewrite O, app_nil_r. apply (H2 k t i Hk').
  - intros k t Hk. destruct (NT k t Hk) as [(-> & ->)|(N & Hk')].
    + eapply moves_rate; eauto.
    + unfold rates. rewrite filter_app. destruct (moves_other _ _ _ _ HM k N) as (_ & O & _). unfold rates in O. rewrite O, app_nil_r. apply (H3 k t Hk').
  - intros k t Hk. destruct (NT k t Hk) as [(-> & ->)|(N & Hk')].
    + eapply moves_handled; eauto.
    + unfold handled. rewrite filter_app, app_length. destruct (moves_other _ _ _ _ HM k N) as (_ & _ & O). unfold handled in O. rewrite O, Nat.add_0_r. apply (H4 k t Hk').
  - assert (CASE : new = [] \/ (exists n, new = [Rate (length l1) n]) \/ l2 = []).
    { inversion HM; subst; eauto. }
    destruct CASE as [->|[(n & ->)| ->]].
    + rewrite app_nil_r. exact H5.
    + apply order_rate. exact H5.
    + apply (order_app es new (length l1)).
      * intros a Ha. destruct (H1 a Ha) as (P & _). rewrite app_length in P. cbn in P. lia.
      * intros a Ha. apply (moves_pass _ _ _ _ HM a Ha).
      * exact H5.
Qed.

Lemma in_time_of l es : Forall (good_st c chunks) l -> sinv l es -> in_time es.
Proof.
  intros G (H1 & _ & H3 & H4 & _) k. destruct (nth_error l k) as [s|] eqn:Hk.
  - rewrite (H3 k s Hk), (H4 k s Hk), map_length, seq_length. apply lag_of. rewrite Forall_forall in G. apply G. eapply nth_error_In; eauto.
  - apply nth_error_None in Hk.
    assert (R : rates k es = []).
    { apply filter_none. intros a Ha. destruct (H1 a Ha) as (P & _). destruct a; cbn in *; auto. apply Nat.eqb_neq. lia. }
    assert (Hd : handled k es = 0).
    { unfold handled. rewrite filter_none; [reflexivity|]. intros a Ha. destruct (H1 a Ha) as (P & _). destruct a as [k0 ? ? b|k0 ? ?|]; cbn in *; auto.
      - replace (k0 =? k) with false by (symmetry; apply Nat.eqb_neq; lia). reflexivity.
      - apply Nat.eqb_neq. lia. }
    rewrite R, Hd. cbn. lia.
Qed.

Lemma lag_app k0 s s' es new : moves k0 s s' new ->
  (forall es1 es2, es = es1 ++ es2 -> in_time es1) -> in_time (es ++ new) -> forall es1 es2, es ++ new = es1 ++ es2 -> in_time es1.
Proof.
  intros HM HL HN.
  assert (ONE : forall es0 a, (forall es1 es2, es0 = es1 ++ es2 -> in_time es1) -> in_time (es0 ++ [a]) -> forall es1 es2, es0 ++ [a] = es1 ++ es2 -> in_time es1).
  { intros es0 a H0 Ha es1 es2 H. destruct (prefix_app _ _ _ _ H) as [->|(l3 & _ & E1)]; [rewrite app_nil_r in H; rewrite <- H; exact Ha|]. eapply H0; exact E1. }
  inversion HM as [| | | |i x Hi H0 HH HL' HU HMd|]; subst.
  - intros es1 es2 HX. rewrite app_nil_r in HX. eapply HL; exact HX.
  - apply ONE; assumption.
  - apply ONE; assumption.
  - apply ONE; assumption.
  - match goal with |- forall es1 es2, es ++ [?a; ?b] = _ -> _ => change [a; b] with ([a] ++ [b]) in *; rewrite app_assoc in *; apply ONE; [apply ONE; [exact HL|]|exact HN] end.
    intros k. specialize (HL es [] ltac:(rewrite app_nil_r; reflexivity) k). unfold rates, handled in *. rewrite !filter_app, !app_length. cbn [filter is_rate handles negb].
    rewrite andb_false_r. cbn [length]. lia.
  - apply ONE; assumption.
Qed.

Lemma reaches_actions iter x v0 l v : pending x = chunks -> src_ok x -> reaches c E iter (fun _ => x) v0 l v -> exists es,
  ofold act1 es v0 = Ret v /\ sinv l es /\ forall es1 es2, es = es1 ++ es2 -> in_time es1.
Proof.
  intros Hc Hx. unfold reaches. destruct (Nat.eqb_spec iter 0) as [->|Hi].
  { intros (-> & ->). exists []. split; [reflexivity|]. split; [|intros [|z0 zs] es2 H; [|discriminate H]; intros k; cbn; lia].
    split; [intros a []|]. split; [intros [|k] s i Hk; discriminate Hk|]. split; [intros [|k] s Hk; discriminate Hk|]. split; [intros [|k] s Hk; discriminate Hk|].
    intros [|z0 zs] a es2 b es3 k k' H; discriminate H. }
  intros (n & H). remember [init c x] as l0 eqn:E0.
  induction H as [l0 v0|n l0 v0 l v l' v' HR IH HS].
  { subst. exists []. split; [reflexivity|]. split; [|intros [|z0 zs] es2 H; [|discriminate H]; intros k; cbn; lia].
    split; [intros a []|]. split.
    { intros [|k] s i Hk; [|destruct k; discriminate Hk]. injection Hk as <-. exists []. split; [reflexivity|]. unfold holding. cbn [init wks]. destruct i; reflexivity. }
    split; [intros [|k] s Hk; [injection Hk as <-; reflexivity|destruct k; discriminate Hk]|].
    split; [intros [|k] s Hk; [injection Hk as <-; reflexivity|destruct k; discriminate Hk]|].
    intros [|z0 zs] a es2 b es3 k k' H; discriminate H. }
  specialize (IH E0). subst l0. destruct IH as (es & EV & SI & LG).
  assert (RR : reaches c E iter (fun _ => x) v0 l v) by (unfold reaches; destruct (Nat.eqb_spec iter 0); [contradiction|]; exists n; exact HR).
  assert (RR' : reaches c E iter (fun _ => x) v0 l' v') by (unfold reaches; destruct (Nat.eqb_spec iter 0); [contradiction|]; exists (S n); econstructor; eauto).
  destruct (reach_good c E iter x Hx v0 l v RR) as (G & _ & D).
  destruct (reach_good c E iter x Hx v0 l' v' RR') as (G' & _ & _). rewrite Hc in G, G'.
  inversion HS as [l1 s l2 w r VS|l1 s w]; subst.
  - destruct r as [[s' v1]| |]; try discriminate. match goal with R : obind _ _ = Ret _ |- _ => cbn [obind] in R; injection R as <- <- end.
    pose proof (Forall_elt _ _ _ G) as Gs.
    match goal with H : vstep _ _ _ _ _ |- _ => destruct (vstep_moves (length l1) _ _ _ _ Gs H) as (new & MV & EF) end.
    assert (SN : sinv (l1 ++ s' :: l2) (es ++ new)).
    { eapply sinv_move; eauto. intros Hm. destruct l2 as [|s2 l2]; [reflexivity|]. exfalso. apply Hm. eapply (D l1 s (s2 :: l2)); [reflexivity|discriminate]. }
    exists (es ++ new). split; [rewrite ofold_app, EV; exact EF|]. split; [exact SN|].
    eapply lag_app; eauto. eapply in_time_of; eauto.
  - exists es. split; [exact EV|]. split; [|exact LG]. destruct SI as (J1 & J2 & J3 & J4 & J5).
    set (ll := l1 ++ [s]) in *. match goal with |- sinv ?L _ => replace L with (ll ++ [init c x]) by (unfold ll; rewrite <- app_assoc; reflexivity) end.
    assert (NT : forall k t, nth_error (ll ++ [init c x]) k = Some t -> nth_error ll k = Some t \/ (k = length ll /\ t = init c x)).
    { intros k t Hk. destruct (Nat.lt_ge_cases k (length ll)) as [L|L].
      - rewrite nth_error_app1 in Hk by exact L. auto.
      - rewrite nth_error_app2 in Hk by exact L. destruct (k - length ll) as [|m] eqn:Q; [|destruct m; discriminate Hk]. injection Hk as <-. right. split; [lia|reflexivity]. }
    split; [intros a Ha; destruct (J1 a Ha) as (P & Kn); split; [|exact Kn]; rewrite app_length; cbn; lia|].
    split; [|split; [|split; [|exact J5]]].
    + intros k t i Hk. destruct (NT k t Hk) as [Hk'|(-> & ->)]; [apply (J2 k t i Hk')|]. exists []. split; [reflexivity|].
      unfold holding. cbn [init wks script app]. replace (nth_error [] i) with (@None (worker A)) by (destruct i; reflexivity).
      apply filter_none. intros a Ha. destruct (J1 a Ha) as (P & _). destruct a as [k0 i0 ? b|k0 i0 ?|]; cbn in *; auto;
        replace (k0 =? length ll) with false by (symmetry; apply Nat.eqb_neq; lia); reflexivity.
    + intros k t Hk. destruct (NT k t Hk) as [Hk'|(-> & ->)]; [apply (J3 k t Hk')|]. cbn.
      apply filter_none. intros a Ha. destruct (J1 a Ha) as (P & _). destruct a as [k0 i0 ? b|k0 i0 ?|]; cbn in *; auto. apply Nat.eqb_neq; lia.
    + intros k t Hk. destruct (NT k t Hk) as [Hk'|(-> & ->)]; [apply (J4 k t Hk')|]. cbn. unfold handled.
      rewrite filter_none; [reflexivity|]. intros a Ha. destruct (J1 a Ha) as (P & _). destruct a as [k0 i0 ? b|k0 i0 ?|]; cbn in *; auto.
      * replace (k0 =? length ll) with false by (symmetry; apply Nat.eqb_neq; lia); reflexivity.
      * apply Nat.eqb_neq; lia.
Qed.

Lemma trains_actions iter x v0 v : pending x = chunks -> src_ok x -> trains c E iter (fun _ => x) v0 v -> exists es,
  complete chunks (c_g c) iter es /\ ofold act1 es v0 = Ret v.
Proof.
  intros Hc Hx (l & HR & (HL & HD)). destruct (reach_good c E iter x Hx v0 l v HR) as (G & _ & D). rewrite Hc in G.
  destruct (reaches_actions iter x v0 l v Hc Hx HR) as (es & EV & (H1 & H2 & H3 & H4 & H5) & LG).
  exists es. split; [|exact EV].
  assert (ST : forall k, k < iter -> exists s, nth_error l k = Some s /\ main s = MDone /\ good_st c chunks s).
  { intros k Hk. destruct (nth_error l k) as [s|] eqn:Q; [|apply nth_error_None in Q; lia]. exists s. split; [reflexivity|].
    pose proof (nth_error_In _ _ Q) as Hs. split; [|rewrite Forall_forall in G; auto].
    apply nth_error_split in Q. destruct Q as (l1 & l2 & -> & _).
    destruct l2 as [|s2 l2]; [|eapply (D l1 s (s2 :: l2)); [reflexivity|discriminate]].
    destruct HD as [HD|(l0 & s0 & E0 & Hm)]; [lia|]. apply app_inj_tail in E0. destruct E0 as (_ & ->). exact Hm. }
  constructor.
  - intros k i d Hk Hi. destruct (ST k Hk) as (s & Q & Hm & (I & B)). destruct (H2 k s i Q) as (bs & L & Hb). exists bs.
    destruct (done_lemma c _ s I Hm) as (W0 & W1 & _). pose proof (W1 i d Hi) as Wd.
    assert (Hh : holding s i = false).
    { unfold holding. destruct (nth_error (wks s) i) as [[dd w]|] eqn:Qi; [|reflexivity].
      destruct (done_all c chunks s I Hm) as (_ & HF & _). rewrite Forall_forall in HF. specialize (HF _ (nth_error_In _ _ Qi)). destruct w; auto; discriminate HF. }
    rewrite Hh, app_nil_r in Hb. split; [|exact Hb]. rewrite L. unfold nth_word. rewrite Wd. reflexivity.
  - intros a Ha. destruct (H1 a Ha) as (P & Kn). rewrite HL in P. destruct a; cbn in *; auto.
  - exact H5.
  - intros k Hk. destruct (ST k Hk) as (s & Q & Hm & (I & B)). exists (updates s). split; [apply (H3 k s Q)|].
    destruct (done_lemma c _ s I Hm) as (_ & _ & _ & LT).
    unfold updates. destruct (obs s) eqn:O; cbn [ticks] in LT; lia.
  - intros es1 es2 k He. apply (LG es1 es2 He k).
Qed.
End Traces.

(** ** The numbers of a single pass *)
Lemma rates_counts : forall es, (forall a, In a es -> match a with Rate k _ => k = 0 | _ => True end) ->
  forall m, rates 0 es = map (Rate 0) (seq 1 m) -> update_counts es = map Z.of_nat (seq 1 m).
Proof.
  intros es HK m HR.
  assert (G : map (fun a => match a with Rate _ n => Z.of_nat n | _ => 0%Z end) (rates 0 es) = update_counts es).
  { clear HR m. induction es as [|a es IH]; [reflexivity|]. specialize (IH (fun b Hb => HK b (or_intror Hb))). specialize (HK a (or_introl eq_refl)).
    unfold rates in *. destruct a as [k i pos b|k i pos|k n]; cbn [filter is_rate update_counts]; auto. subst k. cbn [Nat.eqb map]. rewrite IH. reflexivity. }
  rewrite <- G, HR, map_map. reflexivity.
Qed.

Lemma prefix_seq : forall (l1 l2 : list action) k b n, l1 ++ l2 = map (Rate k) (seq b n) -> l1 = map (Rate k) (seq b (length l1)).
Proof.
  induction l1 as [|a l1 IH]; intros l2 k b n H; [reflexivity|]. destruct n as [|n]; [discriminate H|]. cbn [app seq map] in H. injection H as -> H.
  cbn [length seq map]. f_equal. eapply IH. exact H.
Qed.

Lemma one_pass_counts {A} (slices : list (list A)) g es1 es2 : complete slices g 1 (es1 ++ es2) ->
  update_counts es1 = map Z.of_nat (seq 1 (length (rates 0 es1))).
Proof.
  intros HC. destruct (cp_rates _ _ _ _ HC 0 Nat.lt_0_1) as (m & HR & _). apply rates_counts.
  - intros a Ha. pose proof (cp_known _ _ _ _ HC a (in_or_app _ _ _ (or_introl Ha))) as K. destruct a; auto. lia.
  - unfold rates in HR |- *. rewrite filter_app in HR. eapply prefix_seq. exact HR.
Qed.
