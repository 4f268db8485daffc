(** An executable scheduler for one pass in memory, and the runs it gives. *)
From Coq Require Import Permutation Lia.
From Verif.Lib Require Import Go F64 ListFacts Tac.
From Verif.Spec Require Import Slices Sched Training Runs Interleave.
From Verif.Model Require Import Sched Run.
From Verif.Proofs Require Import Sched SchedRun Run RunOne.
From Verif.Proofs Require Unlinear.
Local Open Scope nat_scope.

(** What happens next: goroutine [i] handles a word, goroutine [i] hands its report to the observer, the
    observer updates the rate. *)
Inductive choice := Word (i : nat) | Report (i : nat) | Update.

Section Follow.
Context {A X : Type}.
Variables (c : cfg) (E : effects A X) (chunks : list (list A)) (f : list A -> nat -> X -> outcome X).
Hypothesis Hskip : c_skip c = true.
Hypothesis Hwork : forall d pos v, e_work E d pos v (f d pos v).
Hypothesis Hg : length chunks <= c_g c.
Hypothesis Hg0 : 0 < c_g c.
Variable iter : nat.
Notation leads := (Unlinear.leads c E chunks iter).
Let mk := fun _ : nat => Mem chunks.

Definition fstep (a : choice) (q : list (wstep A) * obspc * list (nat * A) * X) : outcome (list (wstep A) * obspc * list (nat * A) * X) :=
  let '(ws, o, lg, v) := q in
  match a with
  | Word i => match nth_error chunks i, nth_error ws i with
              | Some d, Some (WRun (y :: t)) =>
                  obind (e_trial E y v) (fun '(v1, b) =>
                  obind (if b then f d (length d - S (length t)) v1 else Ret v1) (fun v2 =>
                  Ret (upd ws i (WSend t), o, lg ++ [(i, y)], v2)))
              | _, _ => Panic end
  | Report i => match nth_error ws i, o with
                | Some (WSend t), ORecv n => Ret (upd ws i (WRun t), OBusy (S n), lg, v)
                | _, _ => Panic end
  | Update => match o with OBusy n => obind (e_tick E n v) (fun v' => Ret (ws, ORecv n, lg, v')) | _ => Panic end
  end.
Definition follow (l : list choice) q := ofold fstep l q.

Definition wk (ws : list (wstep A)) : list (worker A) := map (fun p => Worker (fst p) (snd p)) (combine chunks ws).
Definition mst (ws : list (wstep A)) (o : obspc) (lg : list (nat * A)) : st A :=
  St (Mem []) MWait (wk ws) o (length chunks) (c_g c) (length chunks) false false lg.

Lemma nth_combine {B C} : forall (l1 : list B) (l2 : list C) i, nth_error (combine l1 l2) i =
  match nth_error l1 i, nth_error l2 i with Some a, Some b => Some (a, b) | _, _ => None end.
Proof.
  induction l1 as [|a l1 IH]; intros [|b l2] [|i]; cbn [combine nth_error]; auto. destruct (nth_error l1 i); reflexivity.
Qed.
Lemma wk_nth ws i d w : nth_error chunks i = Some d -> nth_error ws i = Some w -> nth_error (wk ws) i = Some (Worker d w).
Proof. intros H1 H2. unfold wk. rewrite nth_error_map, nth_combine, H1, H2. reflexivity. Qed.
Lemma wk_upd ws i d w w' : nth_error chunks i = Some d -> nth_error ws i = Some w -> upd (wk ws) i (Worker d w') = wk (upd ws i w').
Proof.
  intros H1 H2. assert (L : i < length (wk ws)) by (apply nth_error_Some; rewrite (wk_nth _ _ _ _ H1 H2); discriminate).
  assert (L2 : i < length ws) by (apply nth_error_Some; congruence).
  apply nth_ext_error. intros j. destruct (Nat.eq_dec j i) as [->|N].
  - rewrite upd_nth_error_eq by exact L. symmetry. apply wk_nth; [exact H1|]. apply upd_nth_error_eq. exact L2.
  - rewrite upd_nth_error_neq by auto. unfold wk. rewrite !nth_error_map, !nth_combine, upd_nth_error_neq by auto. reflexivity.
Qed.
Lemma set_mst ws o lg i d w w' : nth_error chunks i = Some d -> nth_error ws i = Some w -> set_w (mst ws o lg) i w' = wk (upd ws i w').
Proof. intros H1 H2. rewrite (set_w_eq _ i d w w'); [|exact (wk_nth _ _ _ _ H1 H2)]. cbn [wks mst]. eapply wk_upd; eauto. Qed.

Lemma fstep_leads a ws o lg v ws' o' lg' v' : length ws = length chunks -> fstep a (ws, o, lg, v) = Ret (ws', o', lg', v') ->
  length ws' = length chunks /\ leads (mst ws o lg) v (mst ws' o' lg') v'.
Proof.
  intros L H. destruct a as [i|i|]; cbn [fstep] in H.
  - destruct (nth_error chunks i) as [d|] eqn:Hd; [|discriminate H]. destruct (nth_error ws i) as [[|[|y t]| | | |]|] eqn:Hw; try discriminate H.
    destruct (e_trial E y v) as [[v1 b]| |] eqn:ET; try discriminate H. cbn [obind] in H.
    pose proof (wk_nth _ _ _ _ Hd Hw) as HW. set (s := mst ws o lg) in *.
    assert (HW' : nth_error (wks s) i = Some (Worker d (WRun (y :: t)))) by exact HW.
    destruct b.
    + destruct (f d (length d - S (length t)) v1) as [v2| |] eqn:EF; try discriminate H. cbn [obind] in H. injection H as <- <- <- <-.
      split; [rewrite upd_length; exact L|]. pose proof (Hwork d (length d - S (length t)) v1) as HK. rewrite EF in HK.
      destruct (c_pool c) eqn:Hp.
      * set (s1 := St (src s) (main s) (set_w s i (WHold y t)) (obs s) (sem s) (pred (pool s)) (wg s) (tclosed s) false (log s)).
        assert (HS1 : nth_error (wks s1) i = Some (Worker d (WHold y t))).
        { unfold s1. cbn [wks]. unfold s. rewrite (set_mst _ _ _ _ _ _ _ Hd Hw). apply wk_nth; [exact Hd|]. apply upd_nth_error_eq. apply nth_error_Some; congruence. }
        eapply Unlinear.leads_trans.
        { apply Unlinear.leads_step. apply (v_take c E s i d y t v v1 eq_refl HW' Hp); [exact Hg0|exact ET]. }
        fold s1. assert (PL : pool s1 < c_g c) by (cbn; lia).
        pose proof (v_give c E s1 i d y t v1 (Ret v2) eq_refl HS1 PL HK) as HV. cbn [obind] in HV. eapply Unlinear.leads_trans; [apply Unlinear.leads_step; exact HV|].
        match goal with |- leads ?p _ ?q _ => replace p with q; [apply Unlinear.leads_refl|] end.
        rewrite (set_w_eq s1 i d _ _ HS1). assert (W1 : wks s1 = wk (upd ws i (WHold y t))) by (unfold s1, s; cbn [wks]; apply (set_mst _ _ _ _ _ _ _ Hd Hw)).
        rewrite W1, (wk_upd _ _ _ (WHold y t) _ Hd); [|apply upd_nth_error_eq; apply nth_error_Some; congruence].
        unfold s1, s, mst. cbn [src main obs sem pool wg tclosed log].
        f_equal; [|lia]. f_equal. apply nth_ext_error. intros j. destruct (Nat.eq_dec j i) as [->|N].
        -- rewrite !upd_nth_error_eq; auto; try rewrite upd_length; apply nth_error_Some; congruence.
        -- rewrite !upd_nth_error_neq by auto. reflexivity.
      * pose proof (v_train c E s i d y t v v1 (Ret v2) eq_refl HW' Hp ET HK) as HV. cbn [obind] in HV. eapply Unlinear.leads_trans; [apply Unlinear.leads_step; exact HV|].
        unfold s. rewrite (set_mst _ _ _ _ _ _ _ Hd Hw). apply Unlinear.leads_refl.
    + cbn [obind] in H. injection H as <- <- <- <-. split; [rewrite upd_length; exact L|].
      pose proof (v_skip c E s i d y t v v1 eq_refl HW' Hskip ET) as HV. eapply Unlinear.leads_trans; [apply Unlinear.leads_step; exact HV|].
      unfold s. rewrite (set_mst _ _ _ _ _ _ _ Hd Hw). apply Unlinear.leads_refl.
  - destruct (nth_error ws i) as [[| | |t| |]|] eqn:Hw; try discriminate H. destruct o as [n|n|n]; try discriminate H. injection H as <- <- <- <-.
    split; [rewrite upd_length; exact L|].
    destruct (nth_error chunks i) as [d|] eqn:Hd; [|apply nth_error_None in Hd; assert (i < length ws) by (apply nth_error_Some; congruence); lia].
    pose proof (wk_nth _ _ _ _ Hd Hw) as HW. set (s := mst ws (ORecv n) lg) in *.
    pose proof (s_tick c s i t n eq_refl (ex_intro _ d HW) eq_refl eq_refl) as HT.
    eapply Unlinear.leads_trans; [apply Unlinear.leads_quiet; [exact HT|]|].
    + split; [reflexivity|]. split; [cbn; lia|]. intros ? Q; discriminate Q.
    + unfold s. rewrite (set_mst _ _ _ _ _ _ _ Hd Hw). apply Unlinear.leads_refl.
  - destruct o as [n|n|n]; try discriminate H. destruct (e_tick E n v) as [v1| |] eqn:ET; try discriminate H. cbn [obind] in H. injection H as <- <- <- <-.
    split; [exact L|]. pose proof (v_tick c E (mst ws (OBusy n) lg) n v (Ret v1) eq_refl eq_refl ET) as HT. cbn [obind] in HT.
    eapply Unlinear.leads_trans; [apply Unlinear.leads_step; exact HT|]. apply Unlinear.leads_refl.
Qed.

Lemma follow_leads : forall l ws o lg v ws' o' lg' v', length ws = length chunks -> follow l (ws, o, lg, v) = Ret (ws', o', lg', v') ->
  length ws' = length chunks /\ leads (mst ws o lg) v (mst ws' o' lg') v'.
Proof.
  induction l as [|a l IH]; intros ws o lg v ws' o' lg' v' L H.
  - injection H as <- <- <- <-. split; [exact L|]. apply Unlinear.leads_refl.
  - unfold follow in *. cbn [ofold] in H. destruct (fstep a (ws, o, lg, v)) as [[[[ws1 o1] lg1] v1]| |] eqn:E1; try discriminate H. cbn [obind] in H.
    destruct (fstep_leads _ _ _ _ _ _ _ _ _ L E1) as (L1 & H1). destruct (IH _ _ _ _ _ _ _ _ L1 H) as (L2 & H2). split; [exact L2|].
    eapply Unlinear.leads_trans; eauto.
Qed.

(** From the start of a pass to the moment all goroutines are ready. *)
Lemma leads_ready v : leads (init c (Mem chunks)) v (mst (map WRun chunks) (ORecv 0) []) v.
Proof.
  eapply Unlinear.leads_trans; [apply (Unlinear.leads_spawn c E chunks iter v chunks [] 0 (c_g c) eq_refl)|]. cbn [app].
  apply Unlinear.leads_trans with (s1 := Unlinear.mid c chunks (fun _ _ => WNew) 0 0 (length chunks) []) (v1 := v).
  { match goal with |- leads ?a _ _ _ => pose proof (s_mem_end c a eq_refl eq_refl eq_refl) as HT end. cbn [wks obs sem pool wg tclosed log] in HT.
    replace (map (fun d => Worker d WNew) chunks) with (Unlinear.ws_of chunks (fun _ _ => WNew)) in *.
    - apply Unlinear.leads_quiet; [exact HT|]. split; [reflexivity|]. split; [cbn; lia|]. intros ? H; discriminate H.
    - apply nth_ext_error. intros i. rewrite Unlinear.ws_of_nth, nth_error_map. destruct (nth_error chunks i); reflexivity. }
  eapply Unlinear.leads_trans; [apply (Unlinear.leads_acquire c E chunks Hg iter v (length chunks) (Nat.le_refl _))|].
  match goal with |- leads ?p _ ?q _ => replace p with q; [apply Unlinear.leads_refl|] end.
  unfold mst, Unlinear.mid. f_equal. apply nth_ext_error. intros i. rewrite Unlinear.ws_of_nth. unfold wk. rewrite nth_error_map, nth_combine, nth_error_map.
  destruct (nth_error chunks i) as [d|] eqn:Hd; [|reflexivity]. cbn [option_map fst snd].
  assert (i < length chunks) by (apply nth_error_Some; congruence). destruct (Nat.ltb_spec i (length chunks)); [reflexivity|lia].
Qed.
Lemma follow_reaches l v0 ws o lg v : 1 <= iter -> follow l (map WRun chunks, ORecv 0, [], v0) = Ret (ws, o, lg, v) ->
  reaches c E iter mk v0 [mst ws o lg] v.
Proof.
  intros Hi H. destruct (follow_leads _ _ _ _ _ _ _ _ _ (map_length _ _) H) as (L & HL).
  pose proof (Unlinear.leads_trans _ _ _ _ _ _ _ _ _ _ (leads_ready v0) HL) as HR.
  unfold reaches. destruct (Nat.eqb_spec iter 0); [lia|]. destruct (HR 0 [init c (mk 0)] v0 []) as (m & Hm); [constructor|]. exists m. exact Hm.
Qed.
End Follow.

(** A finished pass is a whole training of one iteration. *)
Lemma follow_trains {A X} (c : cfg) (E : effects A X) chunks f l v0 n lg v : c_skip c = true -> (forall d pos v, e_work E d pos v (f d pos v)) ->
  length chunks <= c_g c -> 0 < c_g c ->
  follow E chunks f l (map WRun chunks, ORecv 0, [], v0) = Ret (map (fun _ => WRun []) chunks, ORecv n, lg, v) ->
  trains c E 1 (fun _ => Mem chunks) v0 v.
Proof.
  intros H1 H2 H3 H4 H. destruct (follow_leads c E chunks f H1 H2 H3 H4 1 _ _ _ _ _ _ _ _ _ (map_length _ _) H) as (L & HL).
  pose proof (Unlinear.leads_trans _ _ _ _ _ _ _ _ _ _ (leads_ready c E chunks f H2 H3 H4 1 v0) HL) as HR. clear HL.
  assert (EQ : mst c chunks (map (fun _ => WRun []) chunks) (ORecv n) lg = Unlinear.mid c chunks (fun _ _ => WRun []) n (length chunks) (length chunks) lg).
  { unfold mst, Unlinear.mid. f_equal. apply nth_ext_error. intros i. rewrite Unlinear.ws_of_nth. unfold wk. rewrite nth_error_map, nth_combine, nth_error_map.
    destruct (nth_error chunks i); reflexivity. }
  rewrite EQ in HR. pose proof (Unlinear.leads_trans _ _ _ _ _ _ _ _ _ _ HR (Unlinear.leads_finish c E chunks 1 v n lg (length chunks) (Nat.le_refl _))) as HF.
  rewrite Nat.sub_diag in HF. set (fin := Unlinear.mid _ _ _ _ _ _ _) in HF.
  pose proof (Unlinear.leads_trans _ _ _ _ _ _ _ _ _ _ HF (Unlinear.leads_quiet c E chunks 1 _ _ v (s_wait c fin eq_refl eq_refl eq_refl) ltac:(split; [reflexivity|split; [cbn; lia|intros ? Q; discriminate Q]]))) as HW.
  destruct (HW 0 [init c (Mem chunks)] v0 []) as (m & Hm); [constructor|].
  eexists. split; [unfold reaches; cbn [Nat.eqb]; exists m; exact Hm|]. split; [reflexivity|]. right. exists []. eexists. split; reflexivity.
Qed.

From Verif.Spec Require Import Traces.

Section Turns.
Context {A X : Type}.
Variables (c : cfg) (E : effects A X) (chunks : list (list A)) (f : list A -> nat -> X -> outcome X).
Hypothesis Hskip : c_skip c = true.
Hypothesis Hwork : forall d pos v, e_work E d pos v (f d pos v).
Hypothesis Hg : length chunks <= c_g c.
Hypothesis Hg0 : 0 < c_g c.

Lemma follow_pass iter l v0 n lg v :
  follow E chunks f l (map WRun chunks, ORecv 0, [], v0) = Ret (map (fun _ => WRun []) chunks, ORecv n, lg, v) ->
  exists s, main s = MDone /\ Unlinear.leads c E chunks iter (init c (Mem chunks)) v0 s v.
Proof.
  intros H. destruct (follow_leads c E chunks f Hskip Hwork Hg Hg0 iter _ _ _ _ _ _ _ _ _ (map_length _ _) H) as (L & HL).
  pose proof (Unlinear.leads_trans _ _ _ _ _ _ _ _ _ _ (leads_ready c E chunks f Hwork Hg Hg0 iter v0) HL) as HR. clear HL.
  assert (EQ : mst c chunks (map (fun _ => WRun []) chunks) (ORecv n) lg = Unlinear.mid c chunks (fun _ _ => WRun []) n (length chunks) (length chunks) lg).
  { unfold mst, Unlinear.mid. f_equal. apply nth_ext_error. intros i. rewrite Unlinear.ws_of_nth. unfold wk. rewrite nth_error_map, nth_combine, nth_error_map.
    destruct (nth_error chunks i); reflexivity. }
  rewrite EQ in HR. pose proof (Unlinear.leads_trans _ _ _ _ _ _ _ _ _ _ HR (Unlinear.leads_finish c E chunks iter v n lg (length chunks) (Nat.le_refl _))) as HF.
  rewrite Nat.sub_diag in HF. set (fin := Unlinear.mid _ _ _ _ _ _ _) in HF.
  pose proof (Unlinear.leads_trans _ _ _ _ _ _ _ _ _ _ HF (Unlinear.leads_quiet c E chunks iter _ _ v (s_wait c fin eq_refl eq_refl eq_refl) ltac:(split; [reflexivity|split; [cbn; lia|intros ? Q; discriminate Q]]))) as HW.
  eexists. split; [|exact HW]. reflexivity.
Qed.

Definition at_pos (pos : nat -> nat) : list (wstep A) := map (fun p => WRun (skipn (pos (fst p)) (snd p))) (combine (seq 0 (length chunks)) chunks).
Lemma at_pos_nth pos i : nth_error (at_pos pos) i = option_map (fun d => WRun (skipn (pos i) d)) (nth_error chunks i).
Proof. unfold at_pos. rewrite nth_error_map, Unlinear.nth_combine_seq. destruct (nth_error chunks i); reflexivity. Qed.
Lemma at_pos_length pos : length (at_pos pos) = length chunks.
Proof. unfold at_pos. rewrite map_length, combine_length, seq_length. lia. Qed.

Lemma skipn_cons {B} : forall (l : list B) n y, nth_error l n = Some y -> skipn n l = y :: skipn (S n) l.
Proof. induction l as [|a l IH]; intros [|n] y H; cbn in H; try discriminate. - injection H as ->. reflexivity. - apply (IH n y H). Qed.

Lemma turns_follow : forall order pos n lg v v', turns chunks (e_trial E) f (e_tick E) pos n order v = Ret v' ->
  exists lg', follow E chunks f (concat (map (fun i => [Word i; Report i; Update]) order)) (at_pos pos, ORecv n, lg, v) =
    Ret (at_pos (fun i => pos i + count_occ Nat.eq_dec order i), ORecv (n + length order), lg', v').
Proof.
  induction order as [|i order IH]; intros pos n lg v v' H.
  - injection H as <-. exists lg. cbn. rewrite Nat.add_0_r. f_equal. f_equal. f_equal. f_equal. apply nth_ext_error. intros j. rewrite !at_pos_nth.
    destruct (nth_error chunks j); cbn; [rewrite Nat.add_0_r|]; reflexivity.
  - cbn [turns] in H. destruct (nth_error chunks i) as [d|] eqn:Hd; [|discriminate H]. destruct (nth_error d (pos i)) as [y|] eqn:Hy; [|discriminate H].
    destruct (e_trial E y v) as [[v1 b]| |] eqn:ET; try discriminate H. cbn [obind] in H.
    destruct (if b then f d (pos i) v1 else Ret v1) as [v2| |] eqn:EF; try discriminate H. cbn [obind] in H.
    destruct (e_tick E (S n) v2) as [v3| |] eqn:EK; try discriminate H. cbn [obind] in H.
    destruct (IH _ _ (lg ++ [(i, y)]) _ _ H) as (lg' & IHf). exists lg'. unfold follow in *. cbn [map concat app ofold].
    pose proof (at_pos_nth pos i) as HW. rewrite Hd in HW. cbn [option_map] in HW. rewrite (skipn_cons _ _ _ Hy) in HW.
    assert (LP : pos i < length d) by (apply nth_error_Some; congruence).
    assert (LI : i < length (at_pos pos)) by (rewrite at_pos_length; apply nth_error_Some; congruence).
    cbn [fstep]. rewrite Hd, HW, ET. cbn [obind].
    replace (length d - S (length (skipn (S (pos i)) d))) with (pos i) by (rewrite skipn_length; lia). rewrite EF. cbn [obind ofold fstep].
    rewrite upd_nth_error_eq by exact LI. cbn [obind ofold fstep]. rewrite EK. cbn [obind].
    match goal with |- ofold _ _ (?w, _, _, _) = _ => replace w with (at_pos (fun j => if j =? i then S (pos j) else pos j)) end.
    2:{ apply nth_ext_error. intros j. rewrite at_pos_nth. destruct (Nat.eqb_spec j i) as [->|N].
        - rewrite upd_nth_error_eq by (rewrite upd_length; exact LI). rewrite Hd. reflexivity.
        - rewrite !upd_nth_error_neq by auto. rewrite at_pos_nth. reflexivity. }
    rewrite IHf. match goal with |- Ret (?a, _, _, _) = Ret (?b, _, _, _) => assert (Q1 : a = b) end.
    { apply nth_ext_error. intros j. rewrite !at_pos_nth. destruct (nth_error chunks j); cbn [option_map]; [|reflexivity]. do 2 f_equal. f_equal.
      cbn [count_occ]. destruct (Nat.eq_dec i j) as [EIJ|N]; [rewrite EIJ, Nat.eqb_refl; lia|]. destruct (Nat.eqb_spec j i); [congruence|reflexivity]. }
    rewrite Q1. replace (S n + length order) with (n + length (i :: order)) by (cbn [length]; lia). reflexivity.
Qed.

Lemma turns_pass iter order v v' : fair chunks order -> turns chunks (e_trial E) f (e_tick E) (fun _ => 0) 0 order v = Ret v' ->
  exists s, main s = MDone /\ Unlinear.leads c E chunks iter (init c (Mem chunks)) v s v'.
Proof.
  intros HF H. destruct (turns_follow order _ _ [] _ _ H) as (lg' & FW). eapply follow_pass with (n := 0 + length order) (lg := lg').
  match type of FW with follow _ _ _ _ (?a, _, _, _) = Ret (?b, _, _, _) => replace a with (map (@WRun A) chunks) in FW; [replace b with (map (fun _ : list A => @WRun A []) chunks) in FW; [exact FW|]|] end.
  - apply nth_ext_error. intros j. rewrite at_pos_nth, nth_error_map. specialize (HF j). destruct (nth_error chunks j); [|reflexivity]. cbn. rewrite HF, skipn_all. reflexivity.
  - apply nth_ext_error. intros j. rewrite at_pos_nth, nth_error_map. destruct (nth_error chunks j); reflexivity.
Qed.

Lemma turns_trains orders v0 v : Forall (fair chunks) orders ->
  ofold (turns chunks (e_trial E) f (e_tick E) (fun _ => 0) 0) orders v0 = Ret v ->
  trains c E (length orders) (fun _ => Mem chunks) v0 v.
Proof.
  set (iter := length orders). intros HF HO. set (mk := fun _ : nat => Mem chunks).
  assert (G : forall ps n l0 v0 l v v', Forall (fair chunks) ps -> ofold (turns chunks (e_trial E) f (e_tick E) (fun _ => 0) 0) ps v = Ret v' ->
    vruns c E iter mk n l0 v0 (l ++ [init c (Mem chunks)]) v -> S (length l) + length ps <= S iter -> 1 <= length ps ->
    exists m l' s, vruns c E iter mk m l0 v0 (l' ++ [s]) v' /\ main s = MDone /\ S (length l') = length l + length ps).
  { induction ps as [|p ps IH]; intros n l0 v1 l v2 v' HF' HO' HR HL H1; [cbn in H1; lia|].
    inversion HF' as [|? ? Hp HFp]; subst. cbn [ofold] in HO'.
    destruct (turns chunks (e_trial E) f (e_tick E) (fun _ => 0) 0 p v2) as [v3| |] eqn:E1; try discriminate HO'. cbn [obind] in HO'.
    destruct (turns_pass iter p v2 v3 Hp E1) as (s & Hm & HLd). destruct (HLd n l0 v1 l HR) as (m & Hm1).
    destruct ps as [|p2 ps].
    - cbn in HO'. injection HO' as <-. exists m, l, s. cbn [length]. split; [exact Hm1|]. split; [exact Hm|]. lia.
    - assert (HN : vruns c E iter mk (S m) l0 v1 ((l ++ [s]) ++ [init c (Mem chunks)]) v3).
      { econstructor; [exact Hm1|]. pose proof (vr_next c E iter mk l s v3 Hm) as N. rewrite <- app_assoc. apply N. rewrite app_length. cbn [length] in HL |- *. lia. }
      destruct (IH _ _ _ (l ++ [s]) v3 v' HFp HO' HN) as (m2 & l2 & s2 & R2 & M2 & L2); [rewrite app_length; cbn [length] in *; lia|cbn; lia|].
      exists m2, l2, s2. split; [exact R2|]. split; [exact M2|]. rewrite L2, app_length. cbn [length]. lia. }
  unfold trains, reaches. destruct (Nat.eqb_spec iter 0) as [E0|N].
  - assert (orders = []) as -> by (destruct orders; auto; cbn in E0; lia). cbn in HO. injection HO as <-. exists []. split; [auto|]. split; auto.
  - destruct (G orders 0 [init c (mk 0)] v0 [] v0 v HF HO) as (m & l' & s & HR & Hm & HL'); [constructor|cbn; unfold iter; lia|unfold iter in N; lia|].
    exists (l' ++ [s]). split; [exists m; exact HR|]. split; [rewrite app_length; cbn [length] in *; unfold iter; lia|]. right. eauto.
Qed.

(** Words of different goroutines, one after the other, while the observer does nothing. *)
Hypothesis Hpool : c_pool c = false.
Lemma words_follow iter v0 : 1 <= iter -> never_fails c E iter (fun _ => Mem chunks) v0 ->
  forall js ws o lg v l0, NoDup js -> (forall j, In j js -> exists y t, nth_error ws j = Some (WRun (y :: t))) -> length ws = length chunks ->
  follow E chunks f l0 (map WRun chunks, ORecv 0, [], v0) = Ret (ws, o, lg, v) ->
  exists ws' lg' v', follow E chunks f (map Word js) (ws, o, lg, v) = Ret (ws', o, lg', v') /\ length lg' = length lg + length js /\
    length ws' = length chunks /\ (forall j, ~ In j js -> nth_error ws' j = nth_error ws j).
Proof.
  intros Hi HN. induction js as [|j js IH]; intros ws o lg v l0 ND HR HL H0.
  - exists ws, lg, v. split; [reflexivity|]. split; [cbn; lia|]. auto.
  - inversion ND as [|? ? Nj ND']; subst. destruct (HR j (or_introl eq_refl)) as (y & t & Hj).
    destruct (nth_error chunks j) as [d|] eqn:Hd; [|apply nth_error_None in Hd; assert (j < length ws) by (apply nth_error_Some; congruence); lia].
    pose proof (follow_reaches c E chunks f Hskip Hwork Hg Hg0 iter l0 v0 ws o lg v Hi H0) as RR.
    pose proof (wk_nth chunks ws j d _ Hd Hj) as HW.
    set (s := mst c chunks ws o lg) in *. assert (HW' : nth_error (wks s) j = Some (Worker d (WRun (y :: t)))) by exact HW.
    assert (ONE : forall r, vstep c E s v r -> exists p, r = Ret p).
    { intros r Hr. destruct (HN _ _ _ RR (vr_inner c E iter (fun _ => Mem chunks) [] s [] v r Hr)) as (p & Hp). destruct r; try discriminate Hp. eauto. }
    assert (STEP : exists v2, fstep E chunks f (Word j) (ws, o, lg, v) = Ret (upd ws j (WSend t), o, lg ++ [(j, y)], v2)).
    { cbn [fstep]. rewrite Hd, Hj. destruct (e_trial E y v) as [[v1 b]|e|] eqn:ET.
      - cbn [obind]. destruct b; [|cbn [obind]; eauto].
        destruct (ONE _ (v_train c E s j d y t v v1 _ eq_refl HW' Hpool ET (Hwork d _ v1))) as (p & Hp).
        destruct (f d (length d - S (length t)) v1); try discriminate Hp. cbn [obind]. eauto.
      - destruct (ONE _ (v_trial_fails c E s j d y t v _ eq_refl HW' ET ltac:(discriminate))) as (p & Hp). discriminate Hp.
      - destruct (ONE _ (v_trial_fails c E s j d y t v _ eq_refl HW' ET ltac:(discriminate))) as (p & Hp). discriminate Hp. }
    destruct STEP as (v2 & ST).
    destruct (IH (upd ws j (WSend t)) o (lg ++ [(j, y)]) v2 (l0 ++ [Word j]) ND') as (ws' & lg' & v' & F & Lg & Lw & Nn).
    + intros m Hm. rewrite upd_nth_error_neq by (intros ->; contradiction). apply HR. right. exact Hm.
    + rewrite upd_length. exact HL.
    + unfold follow in *. rewrite ofold_app, H0. cbn [obind ofold]. rewrite ST. reflexivity.
    + exists ws', lg', v'. split; [unfold follow in *; cbn [map ofold]; rewrite ST; exact F|]. split; [rewrite Lg, app_length; cbn [length]; lia|]. split; [exact Lw|].
      intros m Hm. rewrite Nn by (intros Q; apply Hm; right; exact Q). apply upd_nth_error_neq. intros ->. apply Hm. left. reflexivity.
Qed.

(** The observer can be g+1 words late. *)
Lemma lag_reached iter v0 : 1 <= iter -> never_fails c E iter (fun _ => Mem chunks) v0 ->
  chunks <> [] -> Forall (fun d => 2 <= length d) chunks ->
  exists s v, reaches c E iter (fun _ => Mem chunks) v0 [s] v /\ length (log s) = S (length chunks) /\ obs s = OBusy 1 /\
    exists ch, follow E chunks f ch (map WRun chunks, ORecv 0, [], v0) = Ret (map w_at (wks s), obs s, log s, v) /\ ~ In Update ch.
Proof.
  intros Hi HN NE H2.
  assert (C0 : exists y t, nth_error (map (@WRun A) chunks) 0 = Some (WRun (y :: t)) /\ 1 <= length t).
  { destruct chunks as [|[|y t] cs]; [contradiction|inversion H2 as [|? ? Q]; cbn in Q; lia|]. exists y, t. split; [reflexivity|]. inversion H2 as [|? ? Q]; cbn in Q; lia. }
  destruct C0 as (y & t & N0 & Lt). assert (L0 : 0 < length chunks) by (destruct chunks; [contradiction|cbn; lia]).
  assert (OTH : forall j, j < length chunks -> exists y t, nth_error (map (@WRun A) chunks) j = Some (WRun (y :: t))).
  { intros j Hj. rewrite nth_error_map. destruct (nth_error chunks j) as [d|] eqn:Hd; [|apply nth_error_None in Hd; lia].
    rewrite Forall_forall in H2. specialize (H2 d (nth_error_In _ _ Hd)). destruct d as [|a d]; [cbn in H2; lia|]. cbn. eauto. }
  destruct (words_follow iter v0 Hi HN [0] (map WRun chunks) (ORecv 0) [] v0 []) as (ws1 & lg1 & v1 & F1 & Lg1 & Lw1 & Nn1).
  { constructor; [intros []|constructor]. } { intros j [<-|[]]. eauto. } { apply map_length. } { reflexivity. }
  cbn [length plus] in Lg1.
  assert (W1 : nth_error ws1 0 = Some (WSend t)).
  { unfold follow in F1. cbn [map ofold fstep] in F1. rewrite N0 in F1. destruct (nth_error chunks 0); [|discriminate F1].
    destruct (e_trial E y v0) as [[? b]| |]; try discriminate F1. cbn [obind] in F1. destruct (if b then _ else _); try discriminate F1. cbn [obind] in F1. injection F1 as <- _ _. apply upd_nth_error_eq. rewrite map_length. exact L0. }
  set (ws2 := upd ws1 0 (WRun t)).
  assert (F2 : follow E chunks f ([Word 0] ++ [Report 0]) (map WRun chunks, ORecv 0, [], v0) = Ret (ws2, OBusy 1, lg1, v1)).
  { unfold follow in *. rewrite ofold_app. cbn [map] in F1. rewrite F1. cbn [obind ofold fstep]. rewrite W1. reflexivity. }
  destruct (words_follow iter v0 Hi HN (seq 0 (length chunks)) ws2 (OBusy 1) lg1 v1 ([Word 0] ++ [Report 0]) (seq_NoDup _ _)) as (ws3 & lg3 & v3 & F3 & Lg3 & Lw3 & _).
  { intros j Hj. apply in_seq in Hj. unfold ws2. destruct (Nat.eq_dec j 0) as [->|N].
    - exists (hd y t), (tl t). rewrite upd_nth_error_eq by (rewrite Lw1; exact L0). destruct t; [cbn in Lt; lia|reflexivity].
    - rewrite upd_nth_error_neq by auto. rewrite Nn1; [apply OTH; lia|]. intros [<-|[]]. contradiction. }
  { unfold ws2. rewrite upd_length. exact Lw1. }
  { exact F2. }
  assert (F4 : follow E chunks f (([Word 0] ++ [Report 0]) ++ map Word (seq 0 (length chunks))) (map WRun chunks, ORecv 0, [], v0) = Ret (ws3, OBusy 1, lg3, v3)).
  { unfold follow in *. rewrite ofold_app, F2. exact F3. }
  exists (mst c chunks ws3 (OBusy 1) lg3), v3. split; [eapply follow_reaches; eauto|]. split; [|split; [reflexivity|]].
  - cbn [log mst]. rewrite Lg3, seq_length. lia.
  - eexists. cbn [obs log wks mst]. replace (map w_at (wk chunks ws3)) with ws3; [split; [exact F4|]|].
    + intros Q. apply in_app_or in Q. destruct Q as [[Q|[Q|[]]]|Q]; try discriminate Q. apply in_map_iff in Q. destruct Q as (? & Q & _). discriminate Q.
    + apply nth_ext_error. intros j. unfold wk. rewrite !nth_error_map, nth_combine. destruct (nth_error chunks j) as [d|] eqn:Hd, (nth_error ws3 j) as [w|] eqn:Hw; try reflexivity.
      apply nth_error_None in Hd. assert (j < length ws3) by (apply nth_error_Some; congruence). lia.
Qed.

(** Words do not change what [keep] observes. *)
Lemma follow_keeps {Y} (keep : X -> Y) : (forall y v v' b, e_trial E y v = Ret (v', b) -> keep v' = keep v) ->
  (forall d pos v v', f d pos v = Ret v' -> keep v' = keep v) ->
  forall ch ws o lg v ws' o' lg' v', ~ In Update ch -> follow E chunks f ch (ws, o, lg, v) = Ret (ws', o', lg', v') -> keep v' = keep v.
Proof.
  intros HT HWk. induction ch as [|a ch IH]; intros ws o lg v ws' o' lg' v' NU H.
  - injection H as <- <- <- <-. reflexivity.
  - unfold follow in *. cbn [ofold] in H. destruct (fstep E chunks f a (ws, o, lg, v)) as [[[[ws1 o1] lg1] v1]| |] eqn:E1; try discriminate H. cbn [obind] in H.
    rewrite (IH _ _ _ _ _ _ _ _ (fun Q => NU (or_intror Q)) H). destruct a as [i|i|]; cbn [fstep] in E1.
    + destruct (nth_error chunks i) as [d|]; [|discriminate E1]. destruct (nth_error ws i) as [[|[|y t]| | | |]|]; try discriminate E1.
      destruct (e_trial E y v) as [[v2 b]| |] eqn:ET; try discriminate E1. cbn [obind] in E1. destruct b.
      * destruct (f d _ v2) as [v3| |] eqn:EF; try discriminate E1. cbn [obind] in E1. injection E1 as _ _ _ <-. rewrite (HWk _ _ _ _ EF). eapply HT; eauto.
      * cbn [obind] in E1. injection E1 as _ _ _ <-. eapply HT; eauto.
    + destruct (nth_error ws i) as [[| | |t| |]|]; try discriminate E1. destruct o; try discriminate E1. injection E1 as _ _ _ <-. reflexivity.
    + exfalso. apply NU. left. reflexivity.
Qed.
End Turns.
