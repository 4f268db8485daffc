(** Depth limits that cut nothing make no difference to training. *)
From Coq Require Import Lia.
From Verif.Lib Require Import Go F64 ListFacts Tac.
From Verif.Model Require Import ModelUtil Matrix Huffman Subsample Window Word2vec LearningRate Sched Train Run.
Local Open Scope Z_scope.

(** ** Simulation of whole runs *)
Section Sim.
Context {A X : Type} (c : cfg) (E1 E2 : effects A X) (Rel : X -> X -> Prop).
Hypothesis Htrial : forall x v w v' b, Rel v w -> e_trial E1 x v = Ret (v', b) -> exists w', e_trial E2 x w = Ret (w', b) /\ Rel v' w'.
Hypothesis Hwork : forall d p v w v', Rel v w -> e_work E1 d p v (Ret v') -> exists w', e_work E2 d p w (Ret w') /\ Rel v' w'.
Hypothesis Htick : forall n v w v', Rel v w -> e_tick E1 n v = Ret v' -> exists w', e_tick E2 n w = Ret w' /\ Rel v' w'.

Lemma vstep_sim s v w s' v' : Rel v w -> vstep c E1 s v (Ret (s', v')) -> exists w', vstep c E2 s w (Ret (s', w')) /\ Rel v' w'.
Proof.
  intros HR HS. remember (Ret (s', v')) as r eqn:Er.
  destruct HS as [s s1 v H1 H2|s i d x t v v1 H1 H2 H3 H4|s i d x t v v1 H1 H2 H3 H4 H5|s i d x t v r0 H1 H2 H3 H4|s i d x t v r0 H1 H2 H3 H4|s i d x t v v1 r0 H1 H2 H3 H4 H5|s n v r0 H1 H2 H3].
  - injection Er as <- <-. exists w. split; [constructor; auto|exact HR].
  - injection Er as <- <-. destruct (Htrial x v w v1 false HR H4) as (w' & E & HR'). exists w'. split; [eapply v_skip; eauto|exact HR'].
  - injection Er as <- <-. destruct (Htrial x v w v1 true HR H5) as (w' & E & HR'). exists w'. split; [eapply v_take; eauto|exact HR'].
  - destruct r0 as [p| |]; cbn in Er; discriminate Er.
  - destruct r0 as [v1| |]; cbn in Er; try discriminate Er. injection Er as <- <-. destruct (Hwork _ _ v w v1 HR H4) as (w' & E & HR'). exists w'. split; [|exact HR'].
    exact (v_give c E2 s i d x t w (Ret w') H1 H2 H3 E).
  - destruct r0 as [v2| |]; cbn in Er; try discriminate Er. injection Er as <- <-. destruct (Htrial x v w v1 true HR H4) as (w1 & E & HR1).
    destruct (Hwork _ _ v1 w1 v2 HR1 H5) as (w' & E' & HR'). exists w'. split; [|exact HR']. exact (v_train c E2 s i d x t w w1 (Ret w') H1 H2 H3 E E').
  - destruct r0 as [v1| |]; cbn in Er; try discriminate Er. injection Er as <- <-. destruct (Htick n v w v1 HR H3) as (w' & E & HR'). exists w'. split; [|exact HR'].
    exact (v_tick c E2 s n w (Ret w') H1 H2 E).
Qed.

Lemma vruns_sim iter mk n l0 v0 l v : vruns c E1 iter mk n l0 v0 l v -> forall w0, Rel v0 w0 -> exists w, vruns c E2 iter mk n l0 w0 l w /\ Rel v w.
Proof.
  induction 1 as [l v|n l0 v0 l v l' v' HR IH HS]; intros w0 H0; [exists w0; split; [constructor|exact H0]|].
  destruct (IH w0 H0) as (w & HW & HRel). remember (Ret (l', v')) as r eqn:Er. destruct HS as [l1 s l2 v r0 HV|l s v Hm Hl].
  - destruct r0 as [[s' v1]| |]; cbn in Er; try discriminate Er. injection Er as <- <-. destruct (vstep_sim s v w s' v1 HRel HV) as (w' & HV' & HR'). exists w'. split; [|exact HR'].
    econstructor; [exact HW|]. exact (vr_inner c E2 iter mk l1 s l2 w (Ret (s', w')) HV').
  - injection Er as <- <-. exists w. split; [|exact HRel]. econstructor; [exact HW|]. constructor; auto.
Qed.

Lemma trains_sim iter mk v0 w0 v : Rel v0 w0 -> trains c E1 iter mk v0 v -> exists w, trains c E2 iter mk w0 w /\ Rel v w.
Proof.
  intros H0 (l & HR & HT). unfold reaches in HR. unfold trains, reaches. destruct (iter =? 0)%nat.
  - destruct HR as (-> & ->). exists w0. split; [exists []; auto|exact H0].
  - destruct HR as (n & HR). destruct (vruns_sim _ _ _ _ _ _ _ HR w0 H0) as (w & HW & HRel). exists w. split; [|exact HRel]. exists l. split; [exists n; exact HW|exact HT].
Qed.
End Sim.

(** ** Short paths *)
Section Short.
Variables (B : nat) (set : list nat) (d d' : Z).
Hypothesis Hd : Z.of_nat B <= d.
Hypothesis Hd' : Z.of_nat B <= d'.

Definition short (h : heap) : Prop := forall n, In n set -> (length (path_up (length h) h n) <= B)%nat /\ forall c, hn_cache (hget h n) = Some c -> (length c <= B)%nat.

Lemma path_up_parents h h' : (forall n, hn_parent (hget h' n) = hn_parent (hget h n)) -> forall fuel n, path_up fuel h' n = path_up fuel h n.
Proof. intros H. induction fuel as [|k IH]; intros n; [reflexivity|]. cbn [path_up]. rewrite H. destruct (hn_parent (hget h n)); [rewrite IH|]; reflexivity. Qed.

Lemma hget_upd (h : heap) n x j : hget (upd h n x) j = if (j =? n)%nat && (n <? length h)%nat then x else hget h j.
Proof. unfold hget. rewrite nth_upd. rewrite (Nat.eqb_sym n j). destruct (Nat.eqb_spec j n) as [->|]; [|reflexivity]. destruct (Nat.ltb_spec n (length h)); [reflexivity|]. cbn. rewrite nth_overflow by lia. reflexivity. Qed.

Lemma get_path_short h n : short h -> In n set -> get_path h n d = get_path h n d' /\ short (fst (get_path h n d)).
Proof.
  intros HS Hn. destruct (HS n Hn) as (H1 & H2). split.
  - unfold get_path. cbv zeta. f_equal. set (h' := match hn_cache (hget h n) with Some _ => h | None => _ end).
    set (cc := match hn_cache (hget h' n) with Some c => c | None => [] end).
    assert (HL : (length cc <= B)%nat).
    { unfold cc, h'. destruct (hn_cache (hget h n)) as [l|] eqn:E; [rewrite E; apply H2; reflexivity|]. rewrite hget_upd, Nat.eqb_refl. cbn [andb].
      destruct (Nat.ltb_spec n (length h)); cbn [hn_cache]; [rewrite rev_length; exact H1|]. rewrite E. cbn. lia. }
    assert (G : forall z, Z.of_nat B <= z -> (if z >? Z.of_nat (length cc) then Z.of_nat (length cc) else z) = Z.of_nat (length cc)).
    { intros z Hz. destruct (Z.gtb_spec z (Z.of_nat (length cc))); lia. }
    rewrite !G by assumption. reflexivity.
  - unfold get_path. cbn [fst]. destruct (hn_cache (hget h n)) as [l|] eqn:E; [exact HS|].
    set (x := HNode _ _ _ _ _). intros m Hm. destruct (HS m Hm) as (G1 & G2). rewrite upd_length. split.
    + rewrite (path_up_parents h); [exact G1|]. intros j. rewrite hget_upd. destruct (Nat.eqb_spec j n) as [->|]; cbn [andb]; [|reflexivity]. destruct (_ <? _)%nat; reflexivity.
    + intros c. rewrite hget_upd. destruct (Nat.eqb_spec m n) as [->|]; cbn [andb]; [|apply G2]. destruct (_ <? _)%nat; [|apply G2].
      cbn [hn_cache x]. intros Ec. assert (c = rev (path_up (length h) h n)) by congruence. subst c. rewrite rev_length. exact H1.
Qed.

Lemma set_vec_short h p v : short h -> short (set_vec h p v).
Proof.
  intros HS n Hn. destruct (HS n Hn) as (H1 & H2). unfold set_vec. cbv zeta. rewrite upd_length. split.
  - rewrite (path_up_parents h); [exact H1|]. intros j. rewrite hget_upd. destruct (Nat.eqb_spec j p) as [->|]; cbn [andb]; [|reflexivity]. destruct (_ <? _)%nat; reflexivity.
  - intros c. rewrite hget_upd. destruct (Nat.eqb_spec n p) as [->|]; cbn [andb]; [|apply H2]. destruct (_ <? _)%nat; [|apply H2]. cbn [hn_cache]. apply H2.
Qed.

Variable sig : f64 -> outcome f64.
Lemma hs_loop_short lr ctx : forall path h tmp h' tmp', short h -> hs_loop sig lr ctx path h tmp = Ret (h', tmp') -> short h'.
Proof.
  induction path as [|p path IH]; intros h tmp h' tmp' HS E; [cbn in E; assert (h' = h) by congruence; subst; exact HS|].
  destruct path as [|q rest]; [cbn in E; assert (h' = h) by congruence; subst; exact HS|].
  cbn [hs_loop] in E. cbv zeta in E. destruct (vdot _ _ _) as [inner| |]; cbn [obind] in E; try discriminate E.
  destruct (_ || _)%bool; [assert (h' = h) by congruence; subst; exact HS|].
  destruct (sig inner) as [s| |]; cbn [obind] in E; try discriminate E.
  destruct (vacc _ tmp _) as [t1| |]; cbn [obind] in E; try discriminate E. destruct (vacc _ (hn_vec _) _) as [v1| |]; cbn [obind] in E; try discriminate E.
  eapply IH; [|exact E]. apply set_vec_short, HS.
Qed.

(** Optimizers that differ in the depth limit only. *)
Definition orel (o o' : optimizer) : Prop := exists h, o = HS h set d /\ o' = HS h set d' /\ short h.

Definition out_rel {S} (R : S -> S -> Prop) (x y : outcome S) : Prop :=
  match x, y with Ret a, Ret b => R a b | Err e, Err e' => e = e' | Panic, Panic => True | _, _ => False end.
Lemma out_bind {S T} (R : S -> S -> Prop) (R' : T -> T -> Prop) x y f g : out_rel R x y -> (forall a b, R a b -> out_rel R' (f a) (g b)) -> out_rel R' (obind x f) (obind y g).
Proof. destruct x, y; cbn; try contradiction; auto. Qed.
Lemma out_same {S} (R : S -> S -> Prop) x : (forall a, R a a) -> out_rel R x x.
Proof. destruct x; cbn; auto. Qed.

Lemma optim_rel o o' lr ctx id next tmp : orel o o' ->
  out_rel (fun a b => fst (fst a) = fst (fst b) /\ orel (snd (fst a)) (snd (fst b)) /\ snd a = snd b) (optim sig o lr ctx id next tmp) (optim sig o' lr ctx id next tmp).
Proof.
  intros (h & -> & -> & HS). cbn [optim]. unfold hs_optim. destruct (zindex set id) as [n|] eqn:En; [|exact I].
  assert (Hn : In n set) by (unfold zindex in En; destruct (id <? 0); [discriminate En|]; eapply nth_error_In; eauto).
  destruct (get_path_short h n HS Hn) as (EG & HS'). rewrite <- EG. destruct (get_path h n d) as [h1 o]. cbn [fst] in HS'.
  destruct o as [path| |]; cbn [obind]; [|reflexivity|exact I]. destruct (hs_loop sig lr ctx path h1 tmp) as [[h2 t2]| |] eqn:EH; cbn [obind]; [|reflexivity|exact I].
  cbn. split; [reflexivity|]. split; [|reflexivity]. exists h2. split; [reflexivity|]. split; [reflexivity|]. eapply hs_loop_short; eauto.
Qed.

Definition srel (s s' : wstate) : Prop := s_next s = s_next s' /\ s_param s = s_param s' /\ orel (s_opt s) (s_opt s') /\ s_agg s = s_agg s' /\ s_tmp s = s_tmp s'.

Lemma windowed_rel body len pos window del : (forall c s s', srel s s' -> out_rel srel (body c s) (body c s')) ->
  forall s s', srel s s' -> out_rel srel (windowed body len pos window del s) (windowed body len pos window del s').
Proof.
  intros HB. unfold windowed. generalize (Z.to_nat (window * 2 + 1 - del - del)). intros n. revert del.
  induction n as [|n IH]; intros a s s' HR; cbn [win_loop]; [exact HR|].
  apply (out_bind srel).
  - destruct (a =? window); [exact HR|]. cbv zeta. destruct (_ || _)%bool; [exact HR|apply HB, HR].
  - intros t t' Ht. apply IH, Ht.
Qed.

Lemma sg_body_rel doc pos lr c s s' : srel s s' -> out_rel srel (sg_body sig doc pos lr c s) (sg_body sig doc pos lr c s').
Proof.
  intros (H1 & H2 & H3 & H4 & H5). unfold sg_body. rewrite <- H1, <- H2, <- H4, <- H5. cbv zeta.
  destruct (zindex doc c) as [x|]; [|exact I]. destruct (zindex doc pos) as [t|]; [|exact I].
  destruct (mat_slice (s_param s) x) as [v| |]; cbn [obind]; [|reflexivity|exact I].
  eapply out_bind; [apply optim_rel, H3|]. intros [[n1 o1] t1] [[n2 o2] t2]. cbn [fst snd]. intros (-> & HO & ->).
  destruct (vadd_into v t2) as [v'| |]; cbn [obind]; [|reflexivity|exact I].
  cbn [out_rel]. unfold srel. cbn [s_next s_param s_opt s_agg s_tmp]. auto 6.
Qed.
Lemma sg_rel window doc pos lr s s' : srel s s' -> out_rel srel (sg_train_one sig window doc pos lr s) (sg_train_one sig window doc pos lr s').
Proof.
  intros HR. pose proof HR as (H1 & H2 & H3 & H4 & H5). unfold sg_train_one. rewrite <- H1. destruct (next_random (s_next s) window) as [n o].
  destruct o as [del| |]; cbn [obind]; [|reflexivity|exact I]. apply windowed_rel; [intros; apply sg_body_rel; assumption|].
  unfold srel. cbn [s_next s_param s_opt s_agg s_tmp]. auto 6.
Qed.
Lemma cb_aggregate_rel doc c s s' : srel s s' -> out_rel srel (cb_aggregate doc c s) (cb_aggregate doc c s').
Proof.
  intros (H1 & H2 & H3 & H4 & H5). unfold cb_aggregate. rewrite <- H1, <- H2, <- H4, <- H5.
  destruct (zindex doc c) as [x|]; [|exact I]. destruct (mat_slice (s_param s) x) as [v| |]; cbn [obind]; [|reflexivity|exact I].
  destruct (vacc fadd (s_agg s) v) as [v'| |]; cbn [obind]; [|reflexivity|exact I].
  cbn [out_rel]. unfold srel. cbn [s_next s_param s_opt s_agg s_tmp]. auto 6.
Qed.
Lemma cb_update_rel doc c s s' : srel s s' -> out_rel srel (cb_update doc c s) (cb_update doc c s').
Proof.
  intros (H1 & H2 & H3 & H4 & H5). unfold cb_update. rewrite <- H1, <- H2, <- H4, <- H5.
  destruct (zindex doc c) as [x|]; [|exact I]. destruct (mat_slice (s_param s) x) as [v| |]; cbn [obind]; [|reflexivity|exact I].
  destruct (vadd_into v (s_tmp s)) as [v'| |]; cbn [obind]; [|reflexivity|exact I].
  cbn [out_rel]. unfold srel. cbn [s_next s_param s_opt s_agg s_tmp]. auto 6.
Qed.
Lemma cb_dowith_rel window doc pos fn : (forall c s s', srel s s' -> out_rel srel (fn c s) (fn c s')) ->
  forall s s', srel s s' -> out_rel srel (cb_dowith window doc pos fn s) (cb_dowith window doc pos fn s').
Proof.
  intros HF s s' HR. pose proof HR as (H1 & H2 & H3 & H4 & H5). unfold cb_dowith. rewrite <- H1. destruct (next_random (s_next s) window) as [n o].
  destruct o as [del| |]; cbn [obind]; [|reflexivity|exact I]. apply windowed_rel; [exact HF|].
  unfold srel. cbn [s_next s_param s_opt s_agg s_tmp]. auto 6.
Qed.
Lemma cb_rel window doc pos lr s s' : srel s s' -> out_rel srel (cb_train_one sig window doc pos lr s) (cb_train_one sig window doc pos lr s').
Proof.
  intros HR. pose proof HR as (H1 & H2 & H3 & H4 & H5). unfold cb_train_one. cbv zeta. apply (out_bind srel).
  - apply cb_dowith_rel; [intros; apply cb_aggregate_rel; assumption|]. unfold srel. cbn [s_next s_param s_opt s_agg s_tmp]. rewrite H4, H5. auto 6.
  - intros t t' (K1 & K2 & K3 & K4 & K5). rewrite <- K1, <- K4, <- K5. destruct (zindex doc pos) as [x|]; [|exact I].
    eapply out_bind; [apply optim_rel, K3|]. intros [[n1 o1] t1] [[n2 o2] t2]. cbn [fst snd]. intros (-> & HO & ->).
    apply cb_dowith_rel; [intros; apply cb_update_rel; assumption|]. unfold srel. cbn [s_next s_param s_opt s_agg s_tmp]. auto 6.
Qed.

Definition vrel (v w : wvals) : Prop := wv_next v = wv_next w /\ wv_m v = wv_m w /\ orel (wv_o v) (wv_o w) /\ wv_lr v = wv_lr w /\ wv_k v = wv_k w.

Lemma work_rel md window dim doc pos v w v' : vrel v w -> w2v_work sig md window dim doc pos v (Ret v') -> exists w', w2v_work sig md window dim doc pos w (Ret w') /\ vrel v' w'.
Proof.
  intros (H1 & H2 & H3 & H4 & H5) (agg & tmp & L1 & L2 & E).
  assert (HR : srel (WState (wv_next v) (wv_m v) (wv_o v) agg tmp) (WState (wv_next w) (wv_m w) (wv_o w) agg tmp)).
  { unfold srel. cbn [s_next s_param s_opt s_agg s_tmp]. auto 6. }
  assert (HO : out_rel srel ((match md with SkipGram => sg_train_one | Cbow => cb_train_one end) sig window (map Z.of_nat doc) (Z.of_nat pos) (wv_lr v) (WState (wv_next v) (wv_m v) (wv_o v) agg tmp))
            ((match md with SkipGram => sg_train_one | Cbow => cb_train_one end) sig window (map Z.of_nat doc) (Z.of_nat pos) (wv_lr v) (WState (wv_next w) (wv_m w) (wv_o w) agg tmp))).
  { destruct md; [apply sg_rel|apply cb_rel]; exact HR. }
  unfold w2v_work. rewrite <- H4, <- H5. revert E HO.
  generalize ((match md with SkipGram => sg_train_one | Cbow => cb_train_one end) sig window (map Z.of_nat doc) (Z.of_nat pos) (wv_lr v) (WState (wv_next v) (wv_m v) (wv_o v) agg tmp)). intros r E HO.
  destruct r as [s| |]; cbn [obind] in E; try discriminate E.
  destruct ((match md with SkipGram => sg_train_one | Cbow => cb_train_one end) sig window (map Z.of_nat doc) (Z.of_nat pos) (wv_lr v) (WState (wv_next w) (wv_m w) (wv_o w) agg tmp)) as [s'| |] eqn:E'; cbn [out_rel] in HO; try contradiction.
  exists (WVals (s_next s') (s_param s') (s_opt s') (wv_lr v) (wv_k v)). split.
  - exists agg, tmp. split; [exact L1|]. split; [exact L2|]. rewrite E'. reflexivity.
  - assert (v' = WVals (s_next s) (s_param s) (s_opt s) (wv_lr v) (wv_k v)) by congruence. subst v'. destruct HO as (K1 & K2 & K3 & K4 & K5).
    unfold vrel. cbn [wv_next wv_m wv_o wv_lr wv_k]. auto 6.
Qed.

Lemma trial_rel rand samples x v w v' b : vrel v w -> w2v_trial rand samples x v = Ret (v', b) -> exists w', w2v_trial rand samples x w = Ret (w', b) /\ vrel v' w'.
Proof.
  intros (H1 & H2 & H3 & H4 & H5) E. unfold w2v_trial in *. rewrite <- H5. destruct (trial _ _ _) as [t| |]; cbn [obind] in *; try discriminate E.
  assert (v' = WVals (wv_next v) (wv_m v) (wv_o v) (wv_lr v) (S (wv_k v)) /\ b = t) as (-> & ->) by (split; congruence).
  eexists. split; [reflexivity|]. unfold vrel. cbn [wv_next wv_m wv_o wv_lr wv_k]. auto 6.
Qed.
Lemma tick_rel opts n v w v' : vrel v w -> obind (lr_tick opts (Z.of_nat n) (wv_lr v)) (fun lr => Ret (WVals (wv_next v) (wv_m v) (wv_o v) lr (wv_k v))) = Ret v' ->
  exists w', obind (lr_tick opts (Z.of_nat n) (wv_lr w)) (fun lr => Ret (WVals (wv_next w) (wv_m w) (wv_o w) lr (wv_k w))) = Ret w' /\ vrel v' w'.
Proof.
  intros (H1 & H2 & H3 & H4 & H5) E. rewrite <- H4. destruct (lr_tick _ _ _) as [t| |]; cbn [obind] in *; try discriminate E.
  assert (v' = WVals (wv_next v) (wv_m v) (wv_o v) t (wv_k v)) as -> by congruence.
  eexists. split; [reflexivity|]. unfold vrel. cbn [wv_next wv_m wv_o wv_lr wv_k]. auto 6.
Qed.
End Short.
