(** Path probabilities add up to one. *)
From Coq Require Import Lia Lra Permutation Reals.
From Verif.Lib Require Import Go F64 ListFacts Tac.
From Verif.Model Require Import Dictionary Huffman.
From Verif.Spec Require Import Words Tree Likelihood Logistic.
From Verif.Proofs Require Import Dictionary Huffman HuffOpt HuffPath HuffProps Logistic.
Local Open Scope R_scope.

Lemma rsum_app a b : rsum (a ++ b) = rsum a + rsum b.
Proof. unfold rsum. induction a as [|x a IH]; cbn [app fold_right]; [lra|]. rewrite IH. lra. Qed.
Lemma rsum_perm a b : Permutation a b -> rsum a = rsum b.
Proof. unfold rsum. induction 1; cbn [fold_right] in *; lra. Qed.
Lemma rsum_scale {A} c (f : A -> R) l : rsum (map (fun x => c * f x) l) = c * rsum (map f l).
Proof. unfold rsum. induction l as [|x l IH]; cbn [map fold_right]; [lra|]. rewrite IH. lra. Qed.
Lemma rsum_ones {A} (f : A -> R) l : (forall x, In x l -> f x = 1) -> rsum (map f l) = INR (length l).
Proof.
  unfold rsum. induction l as [|x l IH]; intros H; [reflexivity|]. cbn [map fold_right length]. rewrite IH by (intros; apply H; right; auto).
  rewrite H by (left; auto). rewrite S_INR. lra.
Qed.

(** The leaves with their paths. *)
Fixpoint lpaths (t : ptree) : list (nat * list nat) :=
  match t with PL p => [(p, [p])] | PN p l r => map (fun xq => (fst xq, p :: snd xq)) (lpaths l ++ lpaths r) end.

Lemma lpaths_fst t : map fst (lpaths t) = pleaves t.
Proof. induction t as [p|p l IHl r IHr]; [reflexivity|]. cbn [lpaths pleaves]. rewrite map_map. cbn [fst]. rewrite <- IHl, <- IHr, <- map_app. apply map_ext. reflexivity. Qed.
Lemma lpaths_inpath t x q : In (x, q) (lpaths t) -> exists c, inpath t q c x.
Proof.
  revert x q. induction t as [p|p l IHl r IHr]; intros x q H; cbn [lpaths] in H.
  - destruct H as [H|[]]. injection H as <- <-. exists []. apply (ip_here (PL p)).
  - apply in_map_iff in H. destruct H as ((y & q') & E & H). cbn [fst snd] in E. injection E as <- <-. apply in_app_or in H.
    destruct H as [H|H]; [destruct (IHl _ _ H) as (c & Hc); exists (0%nat :: c)|destruct (IHr _ _ H) as (c & Hc); exists (1%nat :: c)]; constructor; exact Hc.
Qed.
Lemma lpaths_pos t : (1 <= length (lpaths t))%nat.
Proof. induction t; cbn [lpaths length]; [lia|]. rewrite map_length, app_length. lia. Qed.
Lemma lpaths_head t x q : In (x, q) (lpaths t) -> exists q', q = proot t :: q'.
Proof. intros H. destruct (lpaths_inpath _ _ _ H) as (c & Hc). eapply inpath_head, Hc. Qed.

Fixpoint height (t : ptree) : nat := match t with PL _ => 1 | PN _ l r => S (Nat.max (height l) (height r)) end.
Lemma height_le t k : (height t <= k)%nat <-> forall x q, In (x, q) (lpaths t) -> (length q <= k)%nat.
Proof.
  revert k. induction t as [p|p l IHl r IHr]; intros k; cbn [height lpaths].
  - split; [intros H x q [E|[]]; injection E as <- <-; exact H|]. intros H. apply (H p [p]). left. reflexivity.
  - split.
    + intros H x q Hq. apply in_map_iff in Hq. destruct Hq as ((y & q') & E & Hq). cbn [fst snd] in E. injection E as <- <-. cbn [length].
      destruct k as [|k]; [lia|]. apply le_n_S. apply in_app_or in Hq. destruct Hq as [Hq|Hq]; [apply (proj1 (IHl k)) with (x := y)|apply (proj1 (IHr k)) with (x := y)]; auto; lia.
    + intros H. assert (HK : forall x q, In (x, q) (lpaths l) \/ In (x, q) (lpaths r) -> (S (length q) <= k)%nat).
      { intros x q Hq. apply (H x (p :: q)). apply in_map_iff. exists (x, q). split; [reflexivity|]. apply in_or_app. exact Hq. }
      destruct k as [|k].
      { destruct (lpaths l) as [|(x, q) ?] eqn:E; [pose proof (lpaths_pos l) as HH; rewrite E in HH; cbn in HH; lia|]. specialize (HK x q (or_introl (or_introl eq_refl))). lia. }
      apply le_n_S. apply Nat.max_lub; [apply IHl|apply IHr]; intros x q Hq; specialize (HK x q); intuition lia.
Qed.

Section Prob.
Variables (n dim : nat) (f : nat -> nat) (h : heap) (s : nat -> R).
Let code y := hn_code (hget h y).
Definition limited (k : nat) (t : ptree) : R := rsum (map (fun xq => path_prob s code (firstn k (snd xq))) (lpaths t)).

Lemma limited_leaf k p : limited k (PL p) = 1.
Proof. unfold limited. destruct k as [|[|k]]; cbn; lra. Qed.
Lemma limited_cut k p l r : (k <= 1)%nat -> limited k (PN p l r) = INR (length (lpaths (PN p l r))).
Proof.
  intros Hk. unfold limited. apply rsum_ones. intros (x & q) H. destruct (lpaths_head _ _ _ H) as (q' & ->). cbn [snd].
  destruct k as [|[|k]]; [reflexivity|reflexivity|lia].
Qed.
Lemma limited_node k p l r : prepr n dim f h (PN p l r) -> limited (S (S k)) (PN p l r) = s p * limited (S k) l + (1 - s p) * limited (S k) r.
Proof.
  intros HR. cbn [prepr] in HR. destruct HR as (_ & _ & _ & P1 & C1 & P2 & C2 & Rl & Rr).
  unfold limited. cbn [lpaths]. rewrite map_map, map_app, rsum_app, <- !rsum_scale. f_equal; f_equal; apply map_ext_in; intros (x & q) H; cbn [fst snd];
  destruct (lpaths_head _ _ _ H) as (q' & ->); cbn [firstn path_prob]; unfold code; [rewrite C1|rewrite C2]; reflexivity.
Qed.

Lemma limited_one t k : prepr n dim f h t -> (height t <= k)%nat -> limited k t = 1.
Proof.
  revert k. induction t as [p|p l IHl r IHr]; intros k HR Hk; [apply limited_leaf|]. cbn [height] in Hk.
  assert (Hh : (1 <= height l)%nat) by (destruct l; cbn; lia). destruct k as [|[|k]]; [lia|lia|].
  rewrite limited_node by exact HR. cbn [prepr] in HR. rewrite IHl, IHr by (tauto || lia). lra.
Qed.

Hypothesis Hs : forall p, 0 < s p < 1.
Lemma limited_ge t k : prepr n dim f h t -> 1 <= limited k t /\ ((k < height t)%nat -> (2 <= n)%nat \/ True -> (exists p l r, t = PN p l r) -> 1 < limited k t).
Proof.
  revert k. induction t as [p|p l IHl r IHr]; intros k HR.
  - rewrite limited_leaf. split; [lra|]. intros _ _ (p' & l & r & E). discriminate E.
  - destruct (Nat.le_gt_cases k 1) as [Hk|Hk].
    + rewrite limited_cut by exact Hk. cbn [lpaths]. rewrite map_length, app_length. pose proof (lpaths_pos l). pose proof (lpaths_pos r).
      assert (2 <= INR (length (lpaths l) + length (lpaths r))) by (apply (le_INR 2); lia). split; intros; lra.
    + destruct k as [|[|k]]; [lia|lia|]. rewrite limited_node by exact HR. cbn [prepr] in HR. destruct HR as (_ & _ & _ & _ & _ & _ & _ & Rl & Rr).
      destruct (IHl (S k) Rl) as (Gl & Sl). destruct (IHr (S k) Rr) as (Gr & Sr). pose proof (Hs p) as Hp. split; [nra|].
      intros Hh _ _. cbn [height] in Hh.
      assert (C : (S k < height l \/ S k < height r)%nat) by lia. destruct C as [C|C].
      * assert (1 < limited (S k) l); [|nra]. apply Sl; [exact C|right; exact I|]. destruct l; [cbn in C; lia|eauto].
      * assert (1 < limited (S k) r); [|nra]. apply Sr; [exact C|right; exact I|]. destruct r; [cbn in C; lia|eauto].
Qed.
End Prob.

(** The sum over all words. *)
Lemma sum_limited calls dim h set : let d := fold_left dict_add calls dict_new in
  huffman_tree d dim = Ret (h, set) -> (1 <= dict_len d)%nat ->
  exists t, prepr (dict_len d) (Z.to_nat dim) (freq_of d) h t /\ length (pleaves t) = dict_len d /\
    (forall s depth, (0 <= depth)%Z -> rsum (map (fun i => prob_of s h i depth) (seq 0 (dict_len d))) = limited h s (Z.to_nat depth) t) /\
    (forall i q, (i < dict_len d)%nat -> root_path (fun y => hn_parent (hget h y)) q i -> In (i, q) (lpaths t)) /\
    (forall i q, In (i, q) (lpaths t) -> (i < dict_len d)%nat /\ root_path (fun y => hn_parent (hget h y)) q i).
Proof.
  intros d E Hpos. destruct (full_paths calls dim h set E Hpos) as (t & HI & _ & _). fold d in HI.
  destruct (inv1_ptrs _ _ _ _ _ HI) as (Hpt & Hnd & Hlen & Hlf & HPl & HR & Hroot & Hnl). exists t. split; [exact HR|].
  split; [rewrite (Permutation_length HPl), seq_length; reflexivity|].
  assert (RP : forall i q, In (i, q) (lpaths t) -> root_path (fun y => hn_parent (hget h y)) q i).
  { intros i q H. destruct (lpaths_inpath _ _ _ H) as (c & Hc). exact (inpath_root_path _ _ _ _ _ _ _ _ Hc HR Hroot). }
  split; [|split].
  - intros s depth Hd. rewrite (rsum_perm _ _ (Permutation_map _ (Permutation_sym HPl))), <- lpaths_fst, map_map. unfold limited. f_equal. apply map_ext_in.
    intros (i & q) H. cbn [fst snd]. pose proof (RP _ _ H) as Hq. unfold prob_of.
    assert (Hi : (i < length h)%nat).
    { apply Hpt. destruct (lpaths_inpath _ _ _ H) as (c & Hc). eapply inpath_in, Hc. }
    destruct (get_path_lemma calls dim h set E i Hi) as (p & Hp & HG). destruct (HG [] ltac:(constructor)) as (HG' & _). cbn [fold_left] in HG'. rewrite HG'.
    destruct (Z.ltb_spec depth 0); [lia|]. rewrite (root_path_unique _ _ _ _ Hp Hq). reflexivity.
  - intros i q Hi Hq. assert (In i (map fst (lpaths t))) as H by (rewrite lpaths_fst; apply Hlf; unfold dict_len in Hi; lia).
    apply in_map_iff in H. destruct H as ((i' & q') & <- & H). cbn [fst] in *. rewrite (root_path_unique _ _ _ _ Hq (RP _ _ H)). exact H.
  - intros i q H. split; [|exact (RP _ _ H)]. apply Hlf. rewrite <- lpaths_fst. apply in_map_iff. exists (i, q). auto.
Qed.

(** ** The derivative of the log-probability in the score of one node *)
Lemma derivable_same f g x l : (forall t, f t = g t) -> derivable_pt_lim f x l -> derivable_pt_lim g x l.
Proof. intros H D eps He. destruct (D eps He) as (delta & HD). exists delta. intros k Hk Hd. rewrite <- !H. exact (HD k Hk Hd). Qed.

Lemma logistic_in t : 0 < logistic t < 1.
Proof.
  unfold logistic. pose proof (exp_pos (- t)). split; [apply Rinv_0_lt_compat; lra|]. rewrite <- Rinv_1 at 2. apply Rinv_lt_contravar; lra.
Qed.

Lemma path_prob_pos s code path : (forall p, 0 < s p < 1) -> 0 < path_prob s code path.
Proof.
  intros H. induction path as [|p path IH]; [cbn; lra|]. destruct path as [|q rest]; [cbn; lra|]. change (0 < (if Nat.eqb (code q) 0 then s p else 1 - s p) * path_prob s code (q :: rest)).
  pose proof (H p). destruct (Nat.eqb _ _); apply Rmult_lt_0_compat; lra.
Qed.
Lemma path_prob_app s code l1 p q l2 : path_prob s code (l1 ++ p :: q :: l2) =
  path_prob s code (l1 ++ [p]) * ((if Nat.eqb (code q) 0 then s p else 1 - s p) * path_prob s code (q :: l2)).
Proof.
  induction l1 as [|a l1 IH]; [cbn; lra|]. destruct l1 as [|b l1].
  - cbn [app] in *. cbn [path_prob] in *. lra.
  - cbn [app] in *. change (path_prob s code (a :: b :: l1 ++ p :: q :: l2)) with ((if Nat.eqb (code b) 0 then s a else 1 - s a) * path_prob s code (b :: l1 ++ p :: q :: l2)).
    rewrite IH. change (path_prob s code (a :: b :: l1 ++ [p])) with ((if Nat.eqb (code b) 0 then s a else 1 - s a) * path_prob s code (b :: l1 ++ [p])). lra.
Qed.
(** The value at the last node of a path does not matter, nor those outside the path. *)
Lemma path_prob_ext s s' code path : (forall p, In p (removelast path) -> s p = s' p) -> path_prob s code path = path_prob s' code path.
Proof.
  induction path as [|p path IH]; intros H; [reflexivity|]. destruct path as [|q rest]; [reflexivity|].
  change ((if Nat.eqb (code q) 0 then s p else 1 - s p) * path_prob s code (q :: rest) = (if Nat.eqb (code q) 0 then s' p else 1 - s' p) * path_prob s' code (q :: rest)).
  rewrite IH, (H p); [reflexivity|left; reflexivity|]. intros y Hy. apply H. right. exact Hy.
Qed.


Lemma log_prob_deriv s code l1 p q l2 x : (forall y, 0 < s y < 1) -> ~ In p l1 -> ~ In p (q :: l2) ->
  derivable_pt_lim (fun t => ln (path_prob (at_score s p t) code (l1 ++ p :: q :: l2))) x ((if Nat.eqb (code q) 0 then 1 else 0) - logistic x).
Proof.
  intros Hs H1 H2. set (A := path_prob s code (l1 ++ [p])). set (B := path_prob s code (q :: l2)).
  assert (HA : 0 < A) by (apply path_prob_pos, Hs). assert (HB : 0 < B) by (apply path_prob_pos, Hs).
  apply (derivable_same (fun t => (ln A + ln B) + (if Nat.eqb (code q) 0 then ln (logistic t) else ln (1 - logistic t)))).
  - intros t. rewrite path_prob_app.
    rewrite (path_prob_ext (at_score s p t) s code (l1 ++ [p])), (path_prob_ext (at_score s p t) s code (q :: l2)).
    + fold A B. unfold at_score at 1 2. rewrite Nat.eqb_refl. pose proof (logistic_in t). destruct (Nat.eqb (code q) 0); rewrite !ln_mult; try apply Rmult_lt_0_compat; try lra.
    + intros y Hy. unfold at_score. destruct (Nat.eqb_spec y p) as [->|]; [|reflexivity]. exfalso. apply H2.
      clear - Hy. assert (G : forall l : list nat, In p (removelast l) -> In p l).
      { induction l as [|a l IH]; [auto|]. destruct l; [intros []|]. intros [H|H]; [left; exact H|right; apply IH, H]. }
      apply G, Hy.
    + intros y Hy. rewrite removelast_last in Hy. unfold at_score. destruct (Nat.eqb_spec y p) as [->|]; [contradiction|reflexivity].
  - replace ((if Nat.eqb (code q) 0 then 1 else 0) - logistic x) with (0 + ((if Nat.eqb (code q) 0 then 1 else 0) - logistic x)) by lra.
    apply (derivable_pt_lim_plus (fun _ => ln A + ln B)); [apply derivable_pt_lim_const|].
    destruct (Nat.eqb (code q) 0); [apply ln_logistic_deriv|apply ln_1_logistic_deriv].
Qed.

(** Paths do not visit a node twice. *)
Lemma inpath_nodup n dim f h t q c x : prepr n dim f h t -> NoDup (pptrs t) -> inpath t q c x -> NoDup q /\ incl q (pptrs t).
Proof.
  intros HR HN H. induction H as [t|p l r q c x H IH|p l r q c x H IH].
  - split; [constructor; [intros []|constructor]|]. intros y [<-|[]]. apply proot_in.
  - cbn [prepr] in HR. cbn [pptrs] in HN. apply NoDup_cons_iff in HN. destruct HN as (N1 & N2).
    destruct IH as (I1 & I2); [tauto|exact (NoDup_app_remove_r _ _ N2)|]. split.
    + constructor; [|exact I1]. intros Hp. apply N1, in_or_app. left. apply I2, Hp.
    + intros y [<-|Hy]; [left; reflexivity|right; apply in_or_app; left; apply I2, Hy].
  - cbn [prepr] in HR. cbn [pptrs] in HN. apply NoDup_cons_iff in HN. destruct HN as (N1 & N2).
    destruct IH as (I1 & I2); [tauto|exact (NoDup_app_remove_l _ _ N2)|]. split.
    + constructor; [|exact I1]. intros Hp. apply N1, in_or_app. right. apply I2, Hp.
    + intros y [<-|Hy]; [left; reflexivity|right; apply in_or_app; right; apply I2, Hy].
Qed.
Lemma path_nodup calls dim h set i q : let d := fold_left dict_add calls dict_new in
  huffman_tree d dim = Ret (h, set) -> (i < dict_len d)%nat -> root_path (fun y => hn_parent (hget h y)) q i -> NoDup q.
Proof.
  intros d E Hi Hq. destruct (full_paths calls dim h set E ltac:(fold d; lia)) as (t & HI & _ & HF). fold d in HI, HF.
  destruct (inv1_ptrs _ _ _ _ _ HI) as (Hpt & Hnd & Hlen & Hlf & HPl & HR & Hroot & Hnl).
  destruct (HF i Hi) as (q' & c & Hq' & _). rewrite (root_path_unique _ _ _ _ Hq (inpath_root_path _ _ _ _ _ _ _ _ Hq' HR Hroot)).
  eapply inpath_nodup; eauto.
Qed.
