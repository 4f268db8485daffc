(** * Paths, codes and cost of the Huffman tree *)
From Coq Require Import Lia Permutation Sorted.
From Verif.Lib Require Import Go F64 ListFacts.
From Verif.Model Require Import Dictionary Huffman.
From Verif.Spec Require Import Words Tree.
From Verif.Proofs Require Import Dictionary HuffOpt Huffman.

Definition parent_of (h : heap) (x : nat) : option nat := hn_parent (hget h x).

Lemma NoDup_app_remove_r {A} (l1 l2 : list A) : NoDup (l1 ++ l2) -> NoDup l1.
Proof.
  induction l1 as [|a l1 IH]; simpl; intros H; [constructor|].
  inversion H as [|? ? Hni Hn]; subst. constructor; auto.
  intros Hx; apply Hni, in_or_app; auto.
Qed.
Lemma NoDup_app_remove_l {A} (l1 l2 : list A) : NoDup (l1 ++ l2) -> NoDup l2.
Proof. induction l1 as [|a l1 IH]; simpl; intros H; auto. inversion H; auto. Qed.

(** ** Root paths *)
Lemma root_path_nil par n : ~ root_path par [] n.
Proof. intros [(r & l & E & _) _]; discriminate. Qed.

Lemma root_path_single par n : par n = None -> root_path par [n] n.
Proof.
  intros H. split; [exists n, []; auto|]. split; [|exists []; auto].
  intros l1 a b l2 E. destruct l1 as [|? [|]]; discriminate.
Qed.

Lemma root_path_snoc par p q n : root_path par p q -> par n = Some q -> root_path par (p ++ [n]) n.
Proof.
  intros ((r & l & -> & Hr) & Hc & (init & Hi)) Hn.
  split; [exists r, (l ++ [n]); auto|]. split; [|exists (r :: l); auto].
  intros l1 a b l2 E.
  destruct l2 as [|c l2].
  - change (l1 ++ [a; b]) with (l1 ++ [a] ++ [b]) in E. rewrite app_assoc in E.
    apply app_inj_tail in E. destruct E as [E <-]. rewrite Hi in E.
    apply app_inj_tail in E. destruct E as [_ <-]. exact Hn.
  - destruct (exists_last (l := c :: l2)) as (l3 & z & E3); [discriminate|].
    rewrite E3 in E. change (l1 ++ a :: b :: l3 ++ [z]) with (l1 ++ (a :: b :: l3) ++ [z]) in E.
    rewrite app_assoc in E. apply app_inj_tail in E. destruct E as [E _].
    eapply Hc; exact E.
Qed.

Lemma root_path_inv par p n : root_path par p n ->
  (p = [n] /\ par n = None) \/ (exists p' q, p = p' ++ [n] /\ root_path par p' q /\ par n = Some q).
Proof.
  intros ((r & l & E0 & Hr) & Hc & (init & Hi)). subst p.
  destruct init as [|x init].
  - left. simpl in Hi. inversion Hi; subst; auto.
  - right. simpl in Hi. inversion Hi; subst x. clear Hi.
    destruct (exists_last (l := r :: init)) as (l3 & z & E3); [discriminate|].
    exists (r :: init), z. subst l. split; [reflexivity|].
    assert (Hz : par n = Some z).
    { apply (Hc l3 z n []). change (r :: init ++ [n]) with ((r :: init) ++ [n]). rewrite E3, <- app_assoc. reflexivity. }
    split; [|exact Hz]. split; [exists r, init; auto|]. split; [|exists l3; auto].
    intros l1 a b l2 E. apply (Hc l1 a b (l2 ++ [n])).
    change (r :: init ++ [n]) with ((r :: init) ++ [n]). rewrite E, <- app_assoc. reflexivity.
Qed.

Lemma root_path_unique par : forall p p' n, root_path par p n -> root_path par p' n -> p = p'.
Proof.
  intros p. remember (length p) as k. revert p Heqk.
  induction k as [k IH] using lt_wf_ind. intros p Hk p' n H H'.
  apply root_path_inv in H. apply root_path_inv in H'.
  destruct H as [[-> Hn]|(p1 & q & -> & H1 & Hn)]; destruct H' as [[-> Hn']|(p2 & q' & -> & H2 & Hn')]; try congruence.
  f_equal. rewrite Hn in Hn'; inversion Hn'; subst q'.
  eapply (IH (length p1)); [rewrite Hk, app_length; simpl; lia|reflexivity|exact H1|exact H2].
Qed.

Lemma path_up_root_path h : (forall p q, parent_of h p = Some q -> p < q < length h) ->
  forall fuel p, p < length h -> length h - p <= fuel -> root_path (parent_of h) (rev (path_up fuel h p)) p.
Proof.
  intros Hup. induction fuel as [|k IH]; intros p Hp Hf; [lia|].
  cbn [path_up rev]. fold (parent_of h p).
  destruct (parent_of h p) as [q|] eqn:E.
  - pose proof (Hup _ _ E). apply (root_path_snoc _ _ q); auto. apply IH; lia.
  - simpl. apply root_path_single; auto.
Qed.

(** ** Paths inside pointer trees *)
Inductive inpath : ptree -> list nat -> list nat -> nat -> Prop :=
| ip_here t : inpath t [proot t] [] (proot t)
| ip_l p l r q c x : inpath l q c x -> inpath (PN p l r) (p :: q) (0 :: c) x
| ip_r p l r q c x : inpath r q c x -> inpath (PN p l r) (p :: q) (1 :: c) x.

Lemma inpath_exists t x : In x (pptrs t) -> exists q c, inpath t q c x.
Proof.
  induction t as [p|p l IHl r IHr]; simpl.
  - intros [<-|[]]. exists [p], []. apply (ip_here (PL p)).
  - intros [<-|H]; [exists [p], []; apply (ip_here (PN p l r))|].
    apply in_app_or in H. destruct H as [H|H].
    + destruct (IHl H) as (q & c & Hi). exists (p :: q), (0 :: c). constructor; auto.
    + destruct (IHr H) as (q & c & Hi). exists (p :: q), (1 :: c). constructor; auto.
Qed.

Lemma inpath_in t q c x : inpath t q c x -> In x (pptrs t).
Proof.
  induction 1; simpl; [apply proot_in| |]; right; apply in_or_app; auto.
Qed.

Lemma inpath_head t q c x : inpath t q c x -> exists q', q = proot t :: q'.
Proof. destruct 1; simpl; eauto. Qed.

Lemma inpath_length t q c x : inpath t q c x -> length q = S (length c).
Proof. induction 1; simpl; auto. Qed.

Section Tree.
  Variables (n dim : nat) (f : nat -> nat) (h : heap).

  Lemma inpath_links t q c x : inpath t q c x -> prepr n dim f h t ->
    (forall l1 a b l2, q = l1 ++ a :: b :: l2 -> parent_of h b = Some a) /\
    (exists init, q = init ++ [x]) /\ map (fun y => hn_code (hget h y)) (tl q) = c.
  Proof.
    induction 1 as [t|p l r q c x H IH|p l r q c x H IH]; intros HR.
    - split; [|split; [exists []; auto|reflexivity]].
      intros [|? [|]] ? ? ? E; discriminate.
    - cbn [prepr] in HR. destruct HR as (_ & _ & _ & P1 & C1 & P2 & C2 & Rl & Rr).
      destruct (IH Rl) as (I1 & (init & I2) & I3). destruct (inpath_head _ _ _ _ H) as (q' & Eq).
      split; [|split].
      + intros [|y l1] a b l2 E.
        * rewrite Eq in E. injection E as E1 E2 _. subst a b. exact P1.
        * injection E as _ E. eapply I1; exact E.
      + exists (p :: init). rewrite I2. reflexivity.
      + cbn [tl]. rewrite Eq in I3 |- *. cbn [tl] in I3. cbn [map]. rewrite C1, I3. reflexivity.
    - cbn [prepr] in HR. destruct HR as (_ & _ & _ & P1 & C1 & P2 & C2 & Rl & Rr).
      destruct (IH Rr) as (I1 & (init & I2) & I3). destruct (inpath_head _ _ _ _ H) as (q' & Eq).
      split; [|split].
      + intros [|y l1] a b l2 E.
        * rewrite Eq in E. injection E as E1 E2 _. subst a b. exact P2.
        * injection E as _ E. eapply I1; exact E.
      + exists (p :: init). rewrite I2. reflexivity.
      + cbn [tl]. rewrite Eq in I3 |- *. cbn [tl] in I3. cbn [map]. rewrite C2, I3. reflexivity.
  Qed.

  Lemma inpath_root_path t q c x : inpath t q c x -> prepr n dim f h t -> parent_of h (proot t) = None ->
    root_path (parent_of h) q x.
  Proof.
    intros H HR Hp. destruct (inpath_links _ _ _ _ H HR) as (I1 & I2 & _).
    destruct (inpath_head _ _ _ _ H) as (q' & Eq).
    split; [exists (proot t), q'; auto|]. split; auto.
  Qed.

  Lemma leaf_lt t x : prepr n dim f h t -> In x (pleaves t) -> x < n.
  Proof.
    induction t as [p|p l IHl r IHr]; simpl; intros HR Hx.
    - destruct Hx as [<-|[]]. tauto.
    - apply in_app_or in Hx. destruct Hx; [apply IHl|apply IHr]; tauto.
  Qed.

  Lemma ptr_lt_leaf t x : prepr n dim f h t -> In x (pptrs t) -> x < n -> In x (pleaves t).
  Proof.
    induction t as [p|p l IHl r IHr]; simpl; intros HR Hx Hl; auto.
    destruct HR as (Hn & HR). destruct Hx as [<-|Hx]; [lia|].
    apply in_app_or in Hx. apply in_or_app. destruct Hx; [left; apply IHl|right; apply IHr]; tauto.
  Qed.

  (** Codes of different leaves are prefix-free. *)
  Lemma inpath_leaf_inv p l r q c x : prepr n dim f h (PN p l r) -> x < n -> inpath (PN p l r) q c x ->
    (exists q' c', c = 0 :: c' /\ inpath l q' c' x) \/ (exists q' c', c = 1 :: c' /\ inpath r q' c' x).
  Proof.
    intros HR Hx H. inversion H; subst.
    - cbn [prepr] in HR. simpl in Hx. lia.
    - left; eauto.
    - right; eauto.
  Qed.

  Lemma codes_prefix_free t : prepr n dim f h t -> forall q q' c c' x y,
    inpath t q c x -> inpath t q' c' y -> x < n -> y < n -> x <> y -> ~ prefix c c'.
  Proof.
    induction t as [p|p l IHl r IHr]; intros HR q q' c c' x y Hx Hy Lx Ly Hne.
    - inversion Hx; subst; inversion Hy; subst. simpl in Hne. congruence.
    - pose proof HR as HR'. cbn [prepr] in HR'.
      destruct HR' as (_ & _ & _ & _ & _ & _ & _ & Rl & Rr).
      destruct (inpath_leaf_inv _ _ _ _ _ _ HR Lx Hx) as [(q1 & c1 & -> & H1)|(q1 & c1 & -> & H1)];
      destruct (inpath_leaf_inv _ _ _ _ _ _ HR Ly Hy) as [(q2 & c2 & -> & H2)|(q2 & c2 & -> & H2)];
      intros (z & E); simpl in E; inversion E; subst.
      + eapply (IHl Rl _ _ _ _ _ _ H1 H2); auto. exists z; auto.
      + eapply (IHr Rr _ _ _ _ _ _ H1 H2); auto. exists z; auto.
  Qed.

  (** Cost as a sum over the leaves. *)
  Lemma bcost_leaves t : prepr n dim f h t -> NoDup (pleaves t) ->
    forall (g : nat -> nat) (len : nat -> nat) d,
    (forall x, In x (pleaves t) -> exists q c, inpath t q c x /\ len x = length c) ->
    bcost g d (strip t) = list_sum (map (fun x => g x * (d + len x)) (pleaves t)).
  Proof.
    induction t as [p|p l IHl r IHr]; intros HR Hnd g len d Hlen.
    - simpl. destruct (Hlen p) as (q & c & Hi & E); [simpl; auto|].
      inversion Hi; subst. rewrite E. simpl. lia.
    - cbn [strip bcost pleaves]. rewrite map_app, list_sum_app.
      pose proof HR as HR'. cbn [prepr] in HR'.
      destruct HR' as (_ & _ & _ & _ & _ & _ & _ & Rl & Rr).
      cbn [pleaves] in Hnd.
      assert (Hd : forall x, In x (pleaves l) -> In x (pleaves r) -> False).
      { clear -Hnd. intros x H1 H2. apply in_split in H1. destruct H1 as (a & b & E). rewrite E in Hnd.
        rewrite <- app_assoc in Hnd. apply NoDup_remove_2 in Hnd. apply Hnd.
        apply in_or_app; right. apply in_or_app; right; auto. }
      rewrite (IHl Rl (NoDup_app_remove_r _ _ Hnd) g (fun x => pred (len x)) (S d)).
      2:{ intros x Hx. destruct (Hlen x) as (q & c & Hi & E); [simpl; apply in_or_app; auto|].
          destruct (inpath_leaf_inv _ _ _ _ _ _ HR (leaf_lt _ _ Rl Hx) Hi) as [(q1 & c1 & -> & H1)|(q1 & c1 & -> & H1)].
          - exists q1, c1. split; auto. rewrite E; auto.
          - exfalso. apply (Hd x Hx). exact (ptr_lt_leaf _ _ Rr (inpath_in _ _ _ _ H1) (leaf_lt _ _ Rl Hx)). }
      rewrite (IHr Rr (NoDup_app_remove_l _ _ Hnd) g (fun x => pred (len x)) (S d)).
      2:{ intros x Hx. destruct (Hlen x) as (q & c & Hi & E); [simpl; apply in_or_app; auto|].
          destruct (inpath_leaf_inv _ _ _ _ _ _ HR (leaf_lt _ _ Rr Hx) Hi) as [(q1 & c1 & -> & H1)|(q1 & c1 & -> & H1)].
          - exfalso. apply (Hd x); auto. exact (ptr_lt_leaf _ _ Rl (inpath_in _ _ _ _ H1) (leaf_lt _ _ Rr Hx)).
          - exists q1, c1. split; auto. rewrite E; auto. }
      f_equal; f_equal; apply map_ext_in; intros x Hx.
      + destruct (Hlen x) as (q & c & Hi & E); [simpl; apply in_or_app; auto|].
        destruct (inpath_leaf_inv _ _ _ _ _ _ HR (leaf_lt _ _ Rl Hx) Hi) as [(q1 & c1 & -> & H1)|(q1 & c1 & -> & H1)];
        rewrite E; simpl; lia.
      + destruct (Hlen x) as (q & c & Hi & E); [simpl; apply in_or_app; auto|].
        destruct (inpath_leaf_inv _ _ _ _ _ _ HR (leaf_lt _ _ Rr Hx) Hi) as [(q1 & c1 & -> & H1)|(q1 & c1 & -> & H1)];
        rewrite E; simpl; lia.
  Qed.
End Tree.

(** ** The whole algorithm *)
Lemma id_freqs_repr ws d : dict_repr ws d -> id_freqs d (seq 0 (maxid d)) = Ret (cfs d).
Proof.
  intros R.
  assert (HL : length (cfs d) = maxid d) by (rewrite (repr_cfs _ _ R), map_length, (repr_max _ _ R); auto).
  assert (G : forall k i, i + k = maxid d -> id_freqs d (seq i k) = Ret (skipn i (cfs d))).
  { induction k as [|k IH]; intros i Hi; simpl.
    - rewrite skipn_all2 by lia. reflexivity.
    - rewrite (IH (S i)) by lia.
      unfold dict_id_freq, zindex. rewrite Nat2Z.id.
      destruct (Z.geb_spec (Z.of_nat i) (Z.of_nat (maxid d))); try lia.
      destruct (Z.ltb_spec (Z.of_nat i) 0); try lia.
      destruct (nth_error (cfs d) i) as [c|] eqn:E; [|apply nth_error_None in E; lia].
      cbn [obind]. f_equal. clear -E. revert i E. induction (cfs d) as [|y l IHl]; intros [|i] E; simpl in *; try discriminate.
      + congruence.
      + apply IHl; auto. }
  rewrite (G (maxid d) 0) by lia. reflexivity.
Qed.

Definition freq_of (d : dict) (i : nat) : nat := nth i (cfs d) 0.

Lemma concat_single {A B} (g : A -> B) l : concat (map (fun x => [g x]) l) = map g l.
Proof. induction l; simpl; congruence. Qed.

Lemma huffman_final ws d dim : dict_repr ws d -> ((0 <= dim)%Z \/ maxid d <= 1) ->
  exists h F, huffman_tree d dim = Ret (h, seq 0 (maxid d)) /\
    inv (maxid d) (Z.to_nat dim) (freq_of d) h F /\
    length F = (if maxid d =? 0 then 0 else 1) /\
    exists W, StronglySorted le W /\ Permutation W (map (freq_of d) (seq 0 (maxid d))) /\
              fcost (freq_of d) F = hcost insW (length W) W.
Proof.
  intros R Hdim. unfold huffman_tree. rewrite (id_freqs_repr _ _ R). cbn [obind].
  assert (HL : length (cfs d) = maxid d) by (rewrite (repr_cfs _ _ R), map_length, (repr_max _ _ R); auto).
  set (n := maxid d) in *. set (f := freq_of d).
  set (h0 := map leaf_node (cfs d)).
  set (key := fun i => hn_val (hget h0 i)). fold key.
  assert (Hg : forall i, i < n -> hget h0 i = leaf_node (f i)).
  { intros i Hi. unfold hget, h0, f, freq_of.
    rewrite (nth_indep _ node0 (leaf_node 0)) by (rewrite map_length; lia).
    rewrite map_nth. reflexivity. }
  assert (Hg' : forall i, n <= i -> hget h0 i = node0).
  { intros i Hi. apply nth_overflow. unfold h0. rewrite map_length; lia. }
  set (ids := sort_stable key (seq 0 n)).
  assert (HP : Permutation ids (seq 0 n)) by apply sort_stable_perm.
  assert (Hlt : forall i, In i ids -> i < n).
  { intros i Hi. apply (Permutation_in _ HP) in Hi. apply in_seq in Hi. lia. }
  assert (Hlen : length ids = n) by (rewrite (Permutation_length HP), seq_length; auto).
  rewrite Hlen.
  replace ((1 <? n) && (dim <? 0)%Z)%bool with false.
  2:{ symmetry. apply andb_false_iff. destruct Hdim; [right; apply Z.ltb_ge; lia|left; apply Nat.ltb_ge; lia]. }
  assert (HI : inv n (Z.to_nat dim) f h0 (map PL ids)).
  { constructor.
    - apply Forall_forall. intros t Ht. apply in_map_iff in Ht. destruct Ht as (i & <- & Hi).
      simpl. rewrite (Hg i) by auto. simpl; auto.
    - apply Forall_forall. intros t Ht. apply in_map_iff in Ht. destruct Ht as (i & <- & Hi).
      simpl. rewrite (Hg i) by auto. simpl; auto.
    - rewrite map_map. simpl. rewrite (concat_single (fun x => x)), map_id.
      unfold h0. rewrite map_length, HL. exact HP.
    - rewrite map_map. simpl. rewrite (concat_single (fun x => x)), map_id. exact HP.
    - rewrite map_map. simpl.
      replace (map (fun x => f x) ids) with (map key ids); [apply sort_stable_sorted|].
      apply map_ext_in. intros i Hi. unfold key. rewrite Hg by auto. reflexivity.
    - intros p. destruct (le_lt_dec n p); [rewrite Hg' by auto|rewrite Hg by auto]; reflexivity.
    - intros p q. destruct (le_lt_dec n p); [rewrite Hg' by auto|rewrite Hg by auto]; discriminate.
    - unfold h0. rewrite !map_length. lia. }
  destruct (merge_loop_inv n (Z.to_nat dim) f n h0 (map PL ids) HI) as (h & F & E & HI' & L1 & L2 & C).
  { rewrite map_length; lia. }
  rewrite map_map in E. simpl in E. rewrite map_id in E. rewrite E.
  exists h, F. split; [reflexivity|]. split; [exact HI'|]. split.
  - rewrite map_length, Hlen in L2. destruct (Nat.eqb_spec n 0) as [E0|E0]; [|auto].
    destruct F as [|t F]; auto. exfalso.
    pose proof (inv_size _ _ _ _ _ HI') as Hs. simpl in Hs. lia.
  - exists (map f ids). split; [|split].
    + pose proof (inv_sorted _ _ _ _ _ HI) as Hs. rewrite map_map in Hs. exact Hs.
    + apply Permutation_map; exact HP.
    + rewrite C. rewrite map_map. cbn [pw]. rewrite map_length, Hlen.
      replace (fcost f (map PL ids)) with 0; [reflexivity|].
      unfold fcost. rewrite map_map. cbn [strip bcost]. clear. induction ids; simpl; auto. lia.
Qed.
