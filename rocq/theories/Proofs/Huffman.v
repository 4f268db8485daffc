(** * Refinement of the Huffman heap to trees *)
From Coq Require Import Lia Permutation Sorted.
From Verif.Lib Require Import Go F64 ListFacts.
From Verif.Model Require Import Dictionary Huffman.
From Verif.Spec Require Import Words Tree.
From Verif.Proofs Require Import Dictionary HuffOpt.

(** ** Binary search *)
Lemma bsearch_spec f : forall fuel i j,
  (forall a b, i <= a -> a <= b -> b < j -> f a = true -> f b = true) ->
  i <= j -> j - i < fuel ->
  let r := bsearch fuel f i j in
  i <= r <= j /\ (forall k, i <= k < r -> f k = false) /\ (forall k, r <= k < j -> f k = true).
Proof.
  induction fuel as [|n IH]; intros i j Hm Hij Hf; [lia|]. cbn [bsearch].
  destruct (Nat.ltb_spec i j) as [Hlt|Hge].
  - assert (Hh : i <= (i + j) / 2 < j).
    { split; [apply Nat.div_le_lower_bound; lia|apply Nat.div_lt_upper_bound; lia]. }
    set (h := (i + j) / 2) in *. cbn zeta.
    destruct (f h) eqn:Efh.
    + destruct (IH i h) as (H1 & H2 & H3); try lia.
      { intros a b Ha Hab Hb. apply Hm; lia. }
      repeat split; try lia; auto.
      intros k Hk. destruct (le_lt_dec h k); [|apply H3; lia].
      apply (Hm h k); try lia; auto.
    + destruct (IH (S h) j) as (H1 & H2 & H3); try lia.
      { intros a b Ha Hab Hb. apply Hm; lia. }
      repeat split; try lia; auto.
      intros k Hk. destruct (le_lt_dec k h); [|apply H2; lia].
      destruct (f k) eqn:Efk; auto. rewrite (Hm k h) in Efh; try lia; auto; discriminate.
  - cbn zeta. repeat split; try lia; intros k Hk; lia.
Qed.

Lemma bsearch_ext f g : forall fuel i j, (forall k, i <= k < j -> f k = g k) ->
  bsearch fuel f i j = bsearch fuel g i j.
Proof.
  induction fuel as [|n IH]; intros i j H; auto. cbn [bsearch].
  destruct (Nat.ltb_spec i j) as [Hlt|Hge]; auto.
  assert (Hh : i <= (i + j) / 2 < j).
  { split; [apply Nat.div_le_lower_bound; lia|apply Nat.div_lt_upper_bound; lia]. }
  set (h := (i + j) / 2) in *. cbn zeta.
  rewrite <- (H h) by lia. destruct (f h); apply IH; intros; apply H; lia.
Qed.

Definition insW (x : nat) (W : list nat) : list nat :=
  let idx := sort_search (length W) (fun i => x <=? nth i W 0) in
  firstn idx W ++ x :: skipn idx W.

Lemma ins_at_perm {A} (x : A) l k : Permutation (firstn k l ++ x :: skipn k l) (x :: l).
Proof. rewrite <- Permutation_middle. apply perm_skip. rewrite firstn_skipn. reflexivity. Qed.

Lemma insW_perm x W : Permutation (insW x W) (x :: W).
Proof. apply ins_at_perm. Qed.

Lemma SS_nth W : StronglySorted le W -> forall i j, i <= j -> j < length W -> nth i W 0 <= nth j W 0.
Proof.
  induction 1 as [|a W HS IH HF]; intros i j Hij Hj; simpl in Hj; [lia|].
  destruct j as [|j].
  - replace i with 0 by lia. auto.
  - destruct i as [|i].
    + simpl. rewrite Forall_forall in HF. apply HF. apply nth_In. lia.
    + simpl. apply IH; lia.
Qed.

Lemma SS_app W1 W2 : StronglySorted le W1 -> StronglySorted le W2 ->
  (forall a b, In a W1 -> In b W2 -> a <= b) -> StronglySorted le (W1 ++ W2).
Proof.
  induction 1 as [|a W HS IH HF]; intros H2 Hab; simpl; auto.
  constructor.
  - apply IH; auto. intros; apply Hab; simpl; auto.
  - apply Forall_forall. intros y Hy. apply in_app_or in Hy. destruct Hy.
    + rewrite Forall_forall in HF; auto.
    + apply Hab; simpl; auto.
Qed.

Lemma SS_app_inv W1 W2 : StronglySorted le (W1 ++ W2) ->
  StronglySorted le W1 /\ StronglySorted le W2 /\ (forall a b, In a W1 -> In b W2 -> a <= b).
Proof.
  induction W1 as [|a W1 IH]; simpl; intros H.
  - repeat split; auto; try constructor. intros ? ? [].
  - inversion H as [|? ? HS HF]; subst. destruct (IH HS) as (H1 & H2 & H3).
    rewrite Forall_forall in HF. repeat split; auto.
    + constructor; auto. apply Forall_forall; intros; apply HF, in_or_app; auto.
    + intros x y [<-|Hx] Hy; [apply HF, in_or_app; auto|auto].
Qed.

Lemma insW_sorted x W : StronglySorted le W -> StronglySorted le (insW x W).
Proof.
  intros HS. unfold insW, sort_search.
  destruct (bsearch_spec (fun i => x <=? nth i W 0) (S (length W)) 0 (length W)) as (H1 & H2 & H3); try lia.
  { intros a b _ Hab Hb Ha. apply Nat.leb_le in Ha. apply Nat.leb_le.
    pose proof (SS_nth W HS a b Hab Hb). lia. }
  set (r := bsearch _ _ _ _) in *.
  pose proof HS as HS'. rewrite <- (firstn_skipn r W) in HS'. apply SS_app_inv in HS'.
  destruct HS' as (Ha & Hb & Hc).
  apply SS_app; auto.
  - constructor; auto. apply Forall_forall. intros y Hy.
    apply (In_nth _ _ 0) in Hy. destruct Hy as (k & Hk & <-). rewrite skipn_length in Hk.
    assert (E : nth k (skipn r W) 0 = nth (r + k) W 0).
    { rewrite <- (firstn_skipn r W) at 2. rewrite app_nth2; rewrite firstn_length_le by lia; [|lia].
      f_equal; lia. }
    rewrite E. apply Nat.leb_le. apply H3; lia.
  - intros a b Ha' [<-|Hb'].
    + apply (In_nth _ _ 0) in Ha'. destruct Ha' as (k & Hk & <-). rewrite firstn_length_le in Hk by lia.
      assert (E : nth k (firstn r W) 0 = nth k W 0).
      { rewrite <- (firstn_skipn r W) at 2. rewrite app_nth1; auto. rewrite firstn_length_le; lia. }
      rewrite E. specialize (H2 k). apply Nat.leb_gt in H2; lia.
    + auto.
Qed.

(** ** Stable insertion sort *)
Lemma insert_stable_perm key x l : Permutation (insert_stable key x l) (x :: l).
Proof.
  induction l as [|y l IH]; simpl; auto.
  destruct (key x <=? key y); auto.
  etransitivity; [apply perm_skip; exact IH|apply perm_swap].
Qed.

Lemma sort_stable_perm key l : Permutation (sort_stable key l) l.
Proof.
  induction l as [|x l IH]; simpl; auto.
  etransitivity; [apply insert_stable_perm|]. apply perm_skip; auto.
Qed.

Lemma insert_stable_sorted key x l : StronglySorted le (map key l) ->
  StronglySorted le (map key (insert_stable key x l)).
Proof.
  induction l as [|y l IH]; simpl; intros H.
  - repeat constructor.
  - inversion H as [|? ? HS HF]; subst.
    destruct (Nat.leb_spec (key x) (key y)); simpl.
    + constructor; auto. constructor; auto.
      eapply Forall_impl; [|exact HF]. intros a Ha; simpl in Ha; lia.
    + constructor; auto.
      apply (Permutation_Forall (x := map key (x :: l))).
      * apply Permutation_map, Permutation_sym, insert_stable_perm.
      * simpl. constructor; [lia|auto].
Qed.

Lemma sort_stable_sorted key l : StronglySorted le (map key (sort_stable key l)).
Proof.
  induction l as [|x l IH]; simpl; [constructor|]. apply insert_stable_sorted; auto.
Qed.

(** ** Pointer trees *)
Inductive ptree := PL (p : nat) | PN (p : nat) (l r : ptree).
Definition proot t := match t with PL p => p | PN p _ _ => p end.
Fixpoint pleaves t := match t with PL p => [p] | PN _ l r => pleaves l ++ pleaves r end.
Fixpoint pptrs t := match t with PL p => [p] | PN p l r => p :: pptrs l ++ pptrs r end.
Definition pproper t := match t with PL _ => [] | PN _ l r => pptrs l ++ pptrs r end.
Fixpoint strip t := match t with PL p => BLeaf p | PN _ l r => BNode (strip l) (strip r) end.
Fixpoint pw (f : nat -> nat) t := match t with PL p => f p | PN _ l r => pw f l + pw f r end.

Lemma proot_in t : In (proot t) (pptrs t).
Proof. destruct t; simpl; auto. Qed.
Lemma pptrs_split t : pptrs t = proot t :: pproper t.
Proof. destruct t; reflexivity. Qed.
Lemma strip_leaves t : bleaves (strip t) = pleaves t.
Proof. induction t; simpl; congruence. Qed.
Lemma leaves_in_ptrs t x : In x (pleaves t) -> In x (pptrs t).
Proof.
  induction t as [p|p l IHl r IHr]; simpl; auto. intros H. right.
  apply in_app_or in H. apply in_or_app. tauto.
Qed.

Section Repr.
  Variables (n dim : nat) (f : nat -> nat).

  Fixpoint prepr (h : heap) (t : ptree) : Prop :=
    match t with
    | PL p => p < n /\ hn_val (hget h p) = f p /\ hn_vec (hget h p) = []
    | PN p l r =>
        n <= p /\ hn_val (hget h p) = pw f t /\ hn_vec (hget h p) = repeat fzero dim /\
        hn_parent (hget h (proot l)) = Some p /\ hn_code (hget h (proot l)) = 0 /\
        hn_parent (hget h (proot r)) = Some p /\ hn_code (hget h (proot r)) = 1 /\
        prepr h l /\ prepr h r
    end.

  Lemma prepr_val h t : prepr h t -> hn_val (hget h (proot t)) = pw f t.
  Proof. destruct t; simpl; intuition. Qed.

  Lemma prepr_ext h h' t :
    (forall x, In x (pptrs t) -> hn_val (hget h' x) = hn_val (hget h x) /\ hn_vec (hget h' x) = hn_vec (hget h x)) ->
    (forall x, In x (pproper t) -> hn_parent (hget h' x) = hn_parent (hget h x) /\ hn_code (hget h' x) = hn_code (hget h x)) ->
    prepr h t -> prepr h' t.
  Proof.
    induction t as [p|p l IHl r IHr]; intros H1 H2 H.
    - simpl in *. destruct (H1 p) as (E1 & E2); auto. rewrite E1, E2; auto.
    - simpl in H. destruct H as (Hn & Hv & Hc & P1 & C1 & P2 & C2 & Rl & Rr).
      assert (Hl : In (proot l) (pproper (PN p l r))) by (simpl; apply in_or_app; left; apply proot_in).
      assert (Hr : In (proot r) (pproper (PN p l r))) by (simpl; apply in_or_app; right; apply proot_in).
      destruct (H1 p) as (E1 & E2); [simpl; auto|].
      destruct (H2 _ Hl) as (E3 & E4). destruct (H2 _ Hr) as (E5 & E6).
      cbn [prepr]. rewrite E1, E2, E3, E4, E5, E6. repeat (split; [assumption|]).
      split; [apply IHl|apply IHr]; auto.
      + intros x Hx. apply H1. simpl; right; apply in_or_app; auto.
      + intros x Hx. apply H2. simpl; apply in_or_app; left. rewrite pptrs_split; right; auto.
      + intros x Hx. apply H1. simpl; right; apply in_or_app; auto.
      + intros x Hx. apply H2. simpl; apply in_or_app; right. rewrite pptrs_split; right; auto.
  Qed.

  Record inv (h : heap) (F : list ptree) : Prop := {
    inv_repr : Forall (prepr h) F;
    inv_roots : Forall (fun t => hn_parent (hget h (proot t)) = None /\ hn_code (hget h (proot t)) = 0) F;
    inv_ptrs : Permutation (concat (map pptrs F)) (seq 0 (length h));
    inv_leaves : Permutation (concat (map pleaves F)) (seq 0 n);
    inv_sorted : StronglySorted le (map (pw f) F);
    inv_cache : forall p, hn_cache (hget h p) = None;
    inv_up : forall p q, hn_parent (hget h p) = Some q -> p < q < length h;
    inv_size : length h + length F = 2 * n
  }.

  Lemma hget_out h p : length h <= p -> hget h p = node0.
  Proof. intros. apply nth_overflow; auto. Qed.

  Lemma hget_link h x c m y : x < length h ->
    hget (link h x c m) y =
    if x =? y then HNode (hn_cache (hget h x)) (Some m) (hn_val (hget h x)) c (hn_vec (hget h x))
    else hget h y.
  Proof.
    intros Hx. unfold link, hget. rewrite nth_upd.
    destruct (Nat.eqb_spec x y); simpl; auto.
    destruct (Nat.ltb_spec x (length h)); auto; lia.
  Qed.

  Lemma hget_snoc h x y : hget (h ++ [x]) y = if y =? length h then x else hget h y.
  Proof.
    unfold hget. destruct (Nat.eqb_spec y (length h)) as [->|Hne].
    - rewrite app_nth2, Nat.sub_diag; auto.
    - destruct (le_lt_dec (length h) y).
      + rewrite !nth_overflow; auto. rewrite app_length; simpl; lia.
      + rewrite app_nth1; auto.
  Qed.

  Lemma link_length h x c m : length (link h x c m) = length h.
  Proof. apply upd_length. Qed.

  (** All fields of every node after one merge of the roots [l], [r]. *)
  Definition merged_heap h l r :=
    let v := hn_val (hget h l) + hn_val (hget h r) in
    link (link (h ++ [HNode None None v 0 (repeat fzero dim)]) l 0 (length h)) r 1 (length h).

  Lemma merged_get h l r y : l < length h -> r < length h -> l <> r ->
    hget (merged_heap h l r) y =
    if y =? length h then HNode None None (hn_val (hget h l) + hn_val (hget h r)) 0 (repeat fzero dim)
    else if y =? l then HNode (hn_cache (hget h l)) (Some (length h)) (hn_val (hget h l)) 0 (hn_vec (hget h l))
    else if y =? r then HNode (hn_cache (hget h r)) (Some (length h)) (hn_val (hget h r)) 1 (hn_vec (hget h r))
    else hget h y.
  Proof.
    intros Hl Hr Hne. unfold merged_heap.
    rewrite hget_link by (rewrite link_length, app_length; simpl; lia).
    rewrite !hget_link by (rewrite app_length; simpl; lia).
    rewrite !hget_snoc.
    rewrite (Nat.eqb_sym r y), (Nat.eqb_sym l y).
    destruct (Nat.eqb_spec y (length h)); destruct (Nat.eqb_spec y r); destruct (Nat.eqb_spec y l);
      destruct (Nat.eqb_spec l r); destruct (Nat.eqb_spec r (length h)); destruct (Nat.eqb_spec l (length h));
      subst; try lia; auto.
  Qed.

  Lemma concat_map_perm {A B} (g : A -> list B) F F' : Permutation F F' ->
    Permutation (concat (map g F)) (concat (map g F')).
  Proof.
    induction 1; simpl; auto.
    - apply Permutation_app_head; auto.
    - rewrite !app_assoc. apply Permutation_app_tail, Permutation_app_comm.
    - etransitivity; eauto.
  Qed.

  Definition insF (t : ptree) (F : list ptree) : list ptree :=
    let idx := sort_search (length F) (fun i => pw f t <=? nth i (map (pw f) F) 0) in
    firstn idx F ++ t :: skipn idx F.

  Lemma insF_weights t F : map (pw f) (insF t F) = insW (pw f t) (map (pw f) F).
  Proof.
    unfold insF, insW. rewrite map_app, firstn_map, map_cons, skipn_map, map_length. reflexivity.
  Qed.

  Lemma merge_step_inv h t1 t2 F :
    inv h (t1 :: t2 :: F) ->
    let t := PN (length h) t1 t2 in
    let h' := merged_heap h (proot t1) (proot t2) in
    merge_step dim h (proot t1) (proot t2) (map proot F) = (h', map proot (insF t F)) /\
    inv h' (insF t F) /\ length h' = S (length h).
  Proof.
    intros [Hre Hro Hpt Hle Hso Hca Hup Hsz] t h'.
    inversion Hre as [|? ? R1 Hre']; subst. inversion Hre' as [|? ? R2 HreF]; subst.
    inversion Hro as [|? ? [O1 O1'] Hro']; subst. inversion Hro' as [|? ? [O2 O2'] HroF]; subst.
    assert (Hin : forall x, In x (concat (map pptrs (t1 :: t2 :: F))) <-> x < length h).
    { intros x. split; intros H.
      - apply (Permutation_in _ Hpt) in H. apply in_seq in H. lia.
      - apply (Permutation_in _ (Permutation_sym Hpt)). apply in_seq. lia. }
    assert (Hnd : NoDup (concat (map pptrs (t1 :: t2 :: F)))).
    { eapply Permutation_NoDup; [apply Permutation_sym; exact Hpt|apply seq_NoDup]. }
    simpl in Hnd, Hin.
    assert (Hl1 : forall x, In x (pptrs t1) -> x < length h).
    { intros x Hx. apply Hin. apply in_or_app; auto. }
    assert (Hl2 : forall x, In x (pptrs t2) -> x < length h).
    { intros x Hx. apply Hin. apply in_or_app; right; apply in_or_app; auto. }
    assert (HlF : forall x t', In t' F -> In x (pptrs t') -> x < length h).
    { intros x t' Ht' Hx. apply Hin. apply in_or_app; right; apply in_or_app; right.
      apply in_concat. exists (pptrs t'). split; auto. apply in_map; auto. }
    assert (Hdis : forall (A B : list nat), NoDup (A ++ B) -> forall x, In x A -> In x B -> False).
    { clear. induction A as [|a A IH]; simpl; intros B Hn x Hx Hy; [destruct Hx|]. destruct Hx as [->|Hx].
      - inversion Hn as [|? ? Hni _]; subst. apply Hni, in_or_app; auto.
      - inversion Hn; subst. eapply IH; eauto. }
    assert (HndA : forall (A B : list nat), NoDup (A ++ B) -> NoDup A /\ NoDup B).
    { clear. induction A as [|a A IH]; simpl; intros B Hn; [split; auto; constructor|].
      inversion Hn as [|? ? Hni Hn']; subst. destruct (IH _ Hn').
      split; auto. constructor; auto. intros Hx; apply Hni, in_or_app; auto. }
    pose proof (Hdis _ _ Hnd) as D1.
    destruct (HndA _ _ Hnd) as [N1 Hnd2]. pose proof (Hdis _ _ Hnd2) as D2.
    destruct (HndA _ _ Hnd2) as [N2 NF].
    set (l := proot t1) in *. set (r := proot t2) in *.
    assert (Hl : l < length h) by (apply Hl1, proot_in).
    assert (Hr : r < length h) by (apply Hl2, proot_in).
    assert (Hlr : l <> r).
    { intros E. apply (D1 l); [apply proot_in|]. apply in_or_app; left. rewrite E; apply proot_in. }
    assert (G : forall y, hget h' y = _) by (intros y; apply merged_get; auto).
    assert (HFne : forall t' x, In t' F -> In x (pptrs t') -> x <> l /\ x <> r /\ x <> length h).
    { intros t' x Ht' Hx.
      assert (In x (concat (map pptrs F))) by (apply in_concat; exists (pptrs t'); split; auto; apply in_map; auto).
      pose proof (HlF x t' Ht' Hx). repeat split; try lia.
      - intros ->. apply (D1 l); [apply proot_in|]. apply in_or_app; auto.
      - intros ->. apply (D2 r); [apply proot_in|auto]. }
    assert (GF : forall t' x, In t' F -> In x (pptrs t') -> hget h' x = hget h x).
    { intros t' x Ht' Hx. rewrite G. destruct (HFne t' x Ht' Hx) as (E1 & E2 & E3).
      destruct (Nat.eqb_spec x (length h)); try lia. destruct (Nat.eqb_spec x l); try lia.
      destruct (Nat.eqb_spec x r); try lia. reflexivity. }
    assert (Glen : length h' = S (length h)).
    { unfold h', merged_heap. rewrite !link_length, app_length. simpl; lia. }
    assert (Vl : hn_val (hget h l) = pw f t1) by (apply prepr_val; auto).
    assert (Vr : hn_val (hget h r) = pw f t2) by (apply prepr_val; auto).
    assert (Hval : forall x, x < length h -> hn_val (hget h' x) = hn_val (hget h x) /\ hn_vec (hget h' x) = hn_vec (hget h x)).
    { intros x Hx. rewrite G. destruct (Nat.eqb_spec x (length h)); try lia.
      destruct (Nat.eqb_spec x l); [subst; auto|]. destruct (Nat.eqb_spec x r); [subst; auto|]. auto. }
    assert (Hpar : forall x, x < length h -> x <> l -> x <> r ->
      hn_parent (hget h' x) = hn_parent (hget h x) /\ hn_code (hget h' x) = hn_code (hget h x)).
    { intros x Hx E1 E2. rewrite G. destruct (Nat.eqb_spec x (length h)); try lia.
      destruct (Nat.eqb_spec x l); try lia. destruct (Nat.eqb_spec x r); try lia. auto. }
    assert (Rt1 : prepr h' t1).
    { eapply prepr_ext; [| |exact R1].
      - intros x Hx. apply Hval; auto.
      - intros x Hx. assert (Hx' : In x (pptrs t1)) by (rewrite pptrs_split; right; auto).
        apply Hpar; auto.
        + intros ->. rewrite pptrs_split in N1. inversion N1; auto.
        + intros ->. apply (D1 r); auto. apply in_or_app; left; apply proot_in. }
    assert (Rt2 : prepr h' t2).
    { eapply prepr_ext; [| |exact R2].
      - intros x Hx. apply Hval; auto.
      - intros x Hx. assert (Hx' : In x (pptrs t2)) by (rewrite pptrs_split; right; auto).
        apply Hpar; auto.
        + intros ->. apply (D1 l); [apply proot_in|]. apply in_or_app; left; auto.
        + intros ->. rewrite pptrs_split in N2. inversion N2; auto. }
    assert (RF : Forall (prepr h') F).
    { rewrite Forall_forall in *. intros t' Ht'. eapply prepr_ext; [| |apply HreF; exact Ht'].
      - intros x Hx. rewrite (GF t' x); auto.
      - intros x Hx. rewrite (GF t' x); auto. rewrite pptrs_split; right; auto. }
    assert (Hn : n <= length h).
    { destruct n as [|n']; [lia|].
      assert (Hi : In n' (concat (map pleaves (t1 :: t2 :: F)))).
      { apply (Permutation_in _ (Permutation_sym Hle)). apply in_seq. lia. }
      apply in_concat in Hi. destruct Hi as (ls & Hls & Hi). apply in_map_iff in Hls.
      destruct Hls as (t' & <- & Ht'). apply leaves_in_ptrs in Hi.
      assert (n' < length h); [|lia]. apply Hin.
      change (In n' (concat (map pptrs (t1 :: t2 :: F)))). apply in_concat.
      exists (pptrs t'). split; auto. apply in_map; auto. }
    assert (Rt : prepr h' t).
    { unfold t. cbn [prepr]. fold l r.
      assert (Gm : hget h' (length h) = HNode None None (hn_val (hget h l) + hn_val (hget h r)) 0 (repeat fzero dim))
        by (rewrite G, Nat.eqb_refl; auto).
      rewrite Gm. rewrite (G l), (G r). rewrite !Nat.eqb_refl.
      destruct (Nat.eqb_spec l (length h)); try lia. destruct (Nat.eqb_spec r (length h)); try lia.
      destruct (Nat.eqb_spec r l); try lia. cbn [hn_val hn_vec hn_parent hn_code pw].
      rewrite Vl, Vr. repeat (split; [auto|]). auto. }
    assert (Hperm : Permutation (insF t F) (t :: F)) by apply ins_at_perm.
    split; [|split; [|exact Glen]].
    - unfold merge_step. fold (merged_heap h l r). fold h'. f_equal.
      unfold insF. rewrite map_app, firstn_map, map_cons, skipn_map. cbn [proot t].
      rewrite map_length. unfold sort_search.
      rewrite (bsearch_ext (fun i => hn_val (hget h l) + hn_val (hget h r) <=? hn_val (hget h' (nth i (map proot F) 0)))
                 (fun i => pw f t <=? nth i (map (pw f) F) 0)); [reflexivity|].
      intros k Hk. cbn [pw]. rewrite Vl, Vr. f_equal.
      destruct (nth_error F k) as [t'|] eqn:E; [|apply nth_error_None in E; lia].
      assert (Ht' : In t' F) by (eapply nth_error_In; eauto).
      rewrite (nth_error_nth (map proot F) k 0 (map_nth_error proot k F E)).
      rewrite (nth_error_nth (map (pw f) F) k 0 (map_nth_error (pw f) k F E)).
      apply prepr_val. rewrite Forall_forall in RF; auto.
    - constructor.
      + eapply Permutation_Forall; [apply Permutation_sym; exact Hperm|]. constructor; auto.
      + eapply Permutation_Forall; [apply Permutation_sym; exact Hperm|]. constructor.
        * cbn [proot t]. rewrite G, Nat.eqb_refl. auto.
        * rewrite Forall_forall in *. intros t' Ht'. rewrite (GF t' (proot t')); auto. apply proot_in.
      + etransitivity; [apply concat_map_perm; exact Hperm|]. simpl. rewrite Glen, seq_S. simpl.
        etransitivity; [|apply Permutation_cons_append]. apply perm_skip.
        rewrite <- app_assoc. exact Hpt.
      + etransitivity; [apply concat_map_perm; exact Hperm|]. simpl.
        rewrite <- app_assoc. exact Hle.
      + rewrite insF_weights. apply insW_sorted. simpl in Hso.
        inversion Hso as [|? ? Hso1 _]; subst. inversion Hso1; auto.
      + intros p. rewrite G. destruct (p =? length h); auto.
        destruct (p =? l); [cbn; auto|]. destruct (p =? r); [cbn; auto|auto].
      + intros p q. rewrite G. rewrite Glen. destruct (Nat.eqb_spec p (length h)); [discriminate|].
        destruct (Nat.eqb_spec p l); [cbn; intros E; inversion E; subst; lia|].
        destruct (Nat.eqb_spec p r); [cbn; intros E; inversion E; subst; lia|].
        intros E; apply Hup in E. lia.
      + rewrite Glen, (Permutation_length Hperm). simpl in Hsz |- *. lia.
  Qed.

  Definition fcost F := list_sum (map (fun t => bcost f 0 (strip t)) F).

  Lemma bcost_S d t : bcost f (S d) (strip t) = bcost f d (strip t) + pw f t.
  Proof. revert d; induction t as [p|p l IHl r IHr]; intros d; simpl; [lia|].
    rewrite IHl, IHr. lia. Qed.

  Lemma merge_loop_inv : forall k h F,
    inv h F -> length F <= k ->
    exists h' F', merge_loop k dim h (map proot F) = (h', map proot F') /\ inv h' F' /\
      length F' <= 1 /\ (length F <> 0 -> length F' = 1) /\
      fcost F' = fcost F + hcost insW k (map (pw f) F).
  Proof.
    induction k as [|k IH]; intros h F HI Hk.
    - destruct F; simpl in Hk; [|lia]. exists h, []. split; [reflexivity|]. split; [exact HI|]. cbn; lia.
    - destruct F as [|t1 [|t2 F]].
      + exists h, []. split; [reflexivity|]. split; [exact HI|]. cbn; lia.
      + exists h, [t1]. split; [reflexivity|]. split; [exact HI|]. cbn; lia.
      + destruct (merge_step_inv h t1 t2 F HI) as (E & HI' & HL).
        cbn [map merge_loop]. rewrite E.
        assert (Hperm : Permutation (insF (PN (length h) t1 t2) F) (PN (length h) t1 t2 :: F)) by apply ins_at_perm.
        destruct (IH _ _ HI') as (h' & F' & E' & HI2 & L1 & L2 & C).
        { rewrite (Permutation_length Hperm). simpl in *; lia. }
        exists h', F'. split; [exact E'|]. split; [exact HI2|]. split; [exact L1|].
        split. { intros _. apply L2. rewrite (Permutation_length Hperm); simpl; lia. }
        rewrite C. cbn [hcost]. rewrite insF_weights. cbn [pw].
        unfold fcost at 1. rewrite (list_sum_perm _ _ (Permutation_map _ Hperm)).
        unfold fcost. simpl. rewrite !bcost_S. lia.
  Qed.
End Repr.
