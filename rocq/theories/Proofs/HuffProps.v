(** * The Huffman properties *)
From Coq Require Import Lia Permutation Sorted.
From Verif.Lib Require Import Go F64 ListFacts.
From Verif.Model Require Import Dictionary Huffman.
From Verif.Spec Require Import Words Tree.
From Verif.Proofs Require Import Dictionary HuffOpt Huffman HuffPath.

Fixpoint subs (t : ptree) : list ptree :=
  match t with PL p => [PL p] | PN p l r => PN p l r :: subs l ++ subs r end.

Lemma subs_ptrs t : map proot (subs t) = pptrs t.
Proof. induction t as [p|p l IHl r IHr]; simpl; auto. rewrite map_app, IHl, IHr. reflexivity. Qed.

Lemma subs_prepr n dim f h t s : prepr n dim f h t -> In s (subs t) -> prepr n dim f h s.
Proof.
  induction t as [p|p l IHl r IHr]; intros HR [<-|Hs]; auto.
  - destruct Hs.
  - cbn [prepr] in HR. apply in_app_or in Hs. destruct Hs; [apply IHl|apply IHr]; tauto.
Qed.

Lemma subs_root t : In t (subs t).
Proof. destruct t; simpl; auto. Qed.

Lemma subs_child t c : In c (pptrs t) -> c = proot t \/
  exists p l r, In (PN p l r) (subs t) /\ (c = proot l \/ c = proot r).
Proof.
  induction t as [p|p l IHl r IHr]; simpl; intros H.
  - destruct H as [<-|[]]; auto.
  - destruct H as [<-|H]; auto. right. apply in_app_or in H. destruct H as [H|H].
    + destruct (IHl H) as [->|(p' & l' & r' & Hs & Hc)].
      * exists p, l, r; auto.
      * exists p', l', r'. split; auto. right. apply in_or_app; auto.
    + destruct (IHr H) as [->|(p' & l' & r' & Hs & Hc)].
      * exists p, l, r; auto.
      * exists p', l', r'. split; auto. right. apply in_or_app; auto.
Qed.

Lemma NoDup_map_inj {A B} (g : A -> B) l x y : NoDup (map g l) -> In x l -> In y l -> g x = g y -> x = y.
Proof.
  induction l as [|a l IH]; simpl; intros Hn Hx Hy E; [tauto|].
  inversion Hn as [|? ? Hni Hn']; subst.
  destruct Hx as [->|Hx], Hy as [->|Hy]; auto.
  - exfalso; apply Hni. rewrite E. apply in_map; auto.
  - exfalso; apply Hni. rewrite <- E. apply in_map; auto.
Qed.

Lemma pw_sum f t : pw f t = list_sum (map f (pleaves t)).
Proof. induction t as [p|p l IHl r IHr]; simpl; [lia|]. rewrite map_app, list_sum_app; lia. Qed.

Lemma freq_of_spec ws d i : dict_repr ws d -> dict_id_freq d (Z.of_nat i) = Ret (freq_of d i).
Proof.
  intros R. unfold freq_of. destruct (le_lt_dec (length (distinct ws)) i) as [Hle|Hlt].
  - rewrite (repr_id_freq_ge _ _ R) by lia. rewrite nth_overflow; auto.
    rewrite (repr_cfs _ _ R), map_length; auto.
  - destruct (nth_error (distinct ws) i) as [w|] eqn:E; [|apply nth_error_None in E; lia].
    rewrite (repr_id_freq _ _ R i w E). f_equal. rewrite (repr_cfs _ _ R).
    symmetry. apply nth_error_nth. apply (map_nth_error (fun w => occurrences w ws)); auto.
Qed.

Lemma freq_total ws d : dict_repr ws d -> list_sum (map (freq_of d) (seq 0 (maxid d))) = length ws.
Proof.
  intros R. rewrite <- (occurrences_sum ws), <- (repr_cfs _ _ R). unfold freq_of.
  assert (HL : length (cfs d) = maxid d) by (rewrite (repr_cfs _ _ R), map_length, (repr_max _ _ R); auto).
  rewrite <- HL. f_equal. clear. induction (cfs d) as [|x l IH]; simpl; auto.
  f_equal. rewrite <- seq_shift, map_map. exact IH.
Qed.

(** What the other lemmas use: one tree over the whole heap. *)
Lemma huffman_one ws d dim : dict_repr ws d -> ((0 <= dim)%Z \/ maxid d <= 1) -> 1 <= maxid d ->
  exists h t, huffman_tree d dim = Ret (h, seq 0 (maxid d)) /\
    inv (maxid d) (Z.to_nat dim) (freq_of d) h [t] /\
    exists W, StronglySorted le W /\ Permutation W (map (freq_of d) (seq 0 (maxid d))) /\
              bcost (freq_of d) 0 (strip t) = hcost insW (length W) W.
Proof.
  intros R Hd Hn. destruct (huffman_final ws d dim R Hd) as (h & F & E & HI & HL & W & HW1 & HW2 & HC).
  destruct (Nat.eqb_spec (maxid d) 0); [lia|].
  destruct F as [|t [|]]; simpl in HL; try discriminate.
  exists h, t. split; [exact E|]. split; [exact HI|]. exists W. split; [auto|]. split; [auto|].
  unfold fcost in HC; simpl in HC. lia.
Qed.

Lemma inv1_ptrs n dim f h t : inv n dim f h [t] ->
  (forall x, In x (pptrs t) <-> x < length h) /\ NoDup (pptrs t) /\ length h = 2 * n - 1 /\
  (forall x, In x (pleaves t) <-> x < n) /\ Permutation (pleaves t) (seq 0 n) /\
  prepr n dim f h t /\ parent_of h (proot t) = None /\ n <= length h.
Proof.
  intros [Hre Hro Hpt Hle Hso Hca Hup Hsz]. simpl in Hpt, Hle, Hsz. rewrite app_nil_r in Hpt, Hle.
  assert (HP : forall x, In x (pptrs t) <-> x < length h).
  { intros x. split; intros H.
    - apply (Permutation_in _ Hpt) in H. apply in_seq in H. lia.
    - apply (Permutation_in _ (Permutation_sym Hpt)). apply in_seq. lia. }
  assert (HPl : forall x, In x (pleaves t) <-> x < n).
  { intros x. split; intros H.
    - apply (Permutation_in _ Hle) in H. apply in_seq in H. lia.
    - apply (Permutation_in _ (Permutation_sym Hle)). apply in_seq. lia. }
  split; [exact HP|]. split.
  { eapply Permutation_NoDup; [apply Permutation_sym; exact Hpt|apply seq_NoDup]. }
  split; [lia|]. split; [exact HPl|]. split; [auto|]. split; [inversion Hre; auto|].
  split; [inversion Hro; tauto|].
  destruct n as [|n']; [lia|].
  assert (n' < length h); [|lia]. apply HP, leaves_in_ptrs, HPl. lia.
Qed.

Definition leaf_spec (d : dict) (h : heap) (i : nat) : Prop :=
  dict_id_freq d (Z.of_nat i) = Ret (hn_val (hget h i)) /\ hn_vec (hget h i) = [] /\
  (forall c, hn_parent (hget h c) <> Some i).

Lemma huffman_structure_lemma calls dim :
  let d := fold_left dict_add calls dict_new in
  let n := dict_len d in
  ((dim < 0)%Z -> 2 <= n -> huffman_tree d dim = Panic) /\
  ((0 <= dim)%Z \/ n <= 1 ->
   exists h, huffman_tree d dim = Ret (h, seq 0 n) /\
    length h = 2 * n - 1 /\
    (forall i, i < n ->
       dict_id_freq d (Z.of_nat i) = Ret (hn_val (hget h i)) /\ hn_vec (hget h i) = [] /\
       (forall c, hn_parent (hget h c) <> Some i)) /\
    (forall m, n <= m < length h -> exists l r,
       l <> r /\ (forall c, c < length h -> (hn_parent (hget h c) = Some m <-> c = l \/ c = r)) /\
       l < length h /\ r < length h /\
       hn_code (hget h l) = 0 /\ hn_code (hget h r) = 1 /\
       hn_val (hget h m) = hn_val (hget h l) + hn_val (hget h r) /\
       hn_vec (hget h m) = repeat fzero (Z.to_nat dim)) /\
    (1 <= n -> exists root, hn_val (hget h root) = length (concat calls) /\
       forall x, x < length h -> exists rest, root_path (fun y => hn_parent (hget h y)) (root :: rest) x)).
Proof.
  intros d n.
  assert (R : dict_repr (concat calls) d).
  { unfold d. rewrite dict_adds_concat. apply dict_repr_of. }
  set (ws := concat calls) in *.
  split.
  { intros Hd Hn. unfold huffman_tree. rewrite (id_freqs_repr _ _ R). cbn [obind].
    rewrite (Permutation_length (sort_stable_perm _ _)), seq_length.
    change (maxid d) with n.
    destruct (Nat.ltb_spec 1 n); [|lia]. destruct (Z.ltb_spec dim 0); [|lia]. reflexivity. }
  intros Hd. change (maxid d) with n in *. destruct (Nat.eq_dec n 0) as [E0|E0].
  { destruct (huffman_final ws d dim R) as (h & F & E & HI & HL & _); [exact Hd|].
    change (maxid d) with n in *. rewrite E0 in *. simpl in HL. destruct F; [|discriminate].
    pose proof (inv_size _ _ _ _ _ HI) as Hs. simpl in Hs.
    exists h. split; [exact E|]. split; [lia|]. split; [intros; lia|]. split; [intros; lia|intros; lia]. }
  destruct (huffman_one ws d dim R) as (h & t & E & HI & _); [exact Hd|unfold n, dict_len in *; lia|].
  change (maxid d) with n in *. set (f := freq_of d) in *.
  destruct (inv1_ptrs _ _ _ _ _ HI) as (Hpt & Hnd & Hlen & Hlf & HPl & HR & Hroot & Hnl).
  assert (Hnds : NoDup (map proot (subs t))) by (rewrite subs_ptrs; auto).
  assert (Hchild : forall c m, hn_parent (hget h c) = Some m ->
    exists l r, In (PN m l r) (subs t) /\ (c = proot l \/ c = proot r)).
  { intros c m Hc. pose proof (inv_up _ _ _ _ _ HI _ _ Hc) as Hb.
    assert (Hci : In c (pptrs t)) by (apply Hpt; lia).
    destruct (subs_child t c Hci) as [->|(p & l & r & Hs & Hcc)].
    { unfold parent_of in Hroot. congruence. }
    pose proof (subs_prepr _ _ _ _ _ _ HR Hs) as HRs. cbn [prepr] in HRs.
    assert (p = m) by (destruct Hcc; subst c; intuition congruence). subst p.
    exists l, r; auto. }
  exists h. split; [exact E|]. split; [lia|]. split.
  { intros i Hi. split.
    - rewrite (freq_of_spec ws d i R). f_equal. symmetry.
      assert (Hsi : exists s, In s (subs t) /\ proot s = i).
      { assert (Hx : In i (map proot (subs t))) by (rewrite subs_ptrs; apply Hpt; lia).
        apply in_map_iff in Hx. destruct Hx as (s & Es & Hs). exists s; auto. }
      destruct Hsi as (s & Hs & Es). pose proof (subs_prepr _ _ _ _ _ _ HR Hs) as HRs.
      destruct s as [p|p l r]; cbn [prepr proot] in *; subst; [tauto|lia].
    - assert (Hsi : exists s, In s (subs t) /\ proot s = i).
      { assert (Hx : In i (map proot (subs t))) by (rewrite subs_ptrs; apply Hpt; lia).
        apply in_map_iff in Hx. destruct Hx as (s & Es & Hs). exists s; auto. }
      destruct Hsi as (s & Hs & Es). pose proof (subs_prepr _ _ _ _ _ _ HR Hs) as HRs.
      split.
      + destruct s as [p|p l r]; cbn [prepr proot] in *; subst; [tauto|lia].
      + intros c Hc. destruct (Hchild c i Hc) as (l & r & Hsm & _).
        pose proof (subs_prepr _ _ _ _ _ _ HR Hsm) as HRm. cbn [prepr] in HRm. lia. }
  split.
  { intros m Hm.
    assert (Hx : In m (map proot (subs t))) by (rewrite subs_ptrs; apply Hpt; lia).
    apply in_map_iff in Hx. destruct Hx as (s & Es & Hs).
    pose proof (subs_prepr _ _ _ _ _ _ HR Hs) as HRs.
    destruct s as [p|p l r]; cbn [prepr proot] in *; subst p; [lia|].
    destruct HRs as (_ & Hv & Hvec & P1 & C1 & P2 & C2 & Rl & Rr).
    exists (proot l), (proot r).
    assert (Hll : proot l < length h) by (pose proof (inv_up _ _ _ _ _ HI _ _ P1); lia).
    assert (Hrl : proot r < length h) by (pose proof (inv_up _ _ _ _ _ HI _ _ P2); lia).
    split; [intros Heq; rewrite Heq in C1; congruence|]. split.
    { intros c Hc. split.
      - intros Hp. destruct (Hchild c m Hp) as (l' & r' & Hs' & Hcc).
        assert (Es : PN m l r = PN m l' r') by (eapply (NoDup_map_inj proot); eauto).
        inversion Es; subst; auto.
      - intros [->| ->]; auto. }
    repeat (split; [assumption|]).
    split; [|exact Hvec].
    rewrite Hv. rewrite (prepr_val _ _ _ _ _ Rl), (prepr_val _ _ _ _ _ Rr). reflexivity. }
  intros _. exists (proot t). split.
  - rewrite (prepr_val _ _ _ _ _ HR), pw_sum.
    rewrite (list_sum_perm _ _ (Permutation_map f HPl)). apply (freq_total ws d R).
  - intros x Hx. destruct (inpath_exists t x) as (q & c & Hi); [apply Hpt; auto|].
    destruct (inpath_head _ _ _ _ Hi) as (q' & ->). exists q'.
    exact (inpath_root_path _ _ _ _ _ _ _ _ Hi HR Hroot).
Qed.

(** ** GetPath *)
Definition path_state (h h' : heap) : Prop :=
  length h' = length h /\
  (forall p, hn_parent (hget h' p) = hn_parent (hget h p) /\ hn_val (hget h' p) = hn_val (hget h p) /\
             hn_code (hget h' p) = hn_code (hget h p) /\ hn_vec (hget h' p) = hn_vec (hget h p)) /\
  (forall p c, hn_cache (hget h' p) = Some c -> root_path (parent_of h) c p).

Lemma path_up_ext h h' : (forall p, hn_parent (hget h' p) = hn_parent (hget h p)) ->
  forall fuel p, path_up fuel h' p = path_up fuel h p.
Proof.
  intros H. induction fuel as [|k IH]; intros p; simpl; auto. rewrite H.
  destruct (hn_parent (hget h p)); auto. rewrite IH; auto.
Qed.

Lemma get_path_step h h' n depth :
  (forall p q, parent_of h p = Some q -> p < q < length h) -> n < length h ->
  path_state h h' ->
  path_state h (fst (get_path h' n depth)) /\
  forall p, root_path (parent_of h) p n ->
    snd (get_path h' n depth) = if (depth <? 0)%Z then Panic else Ret (firstn (Z.to_nat depth) p).
Proof.
  intros Hup Hn (HL & HF & HC).
  assert (Hpu : root_path (parent_of h) (rev (path_up (length h') h' n)) n).
  { rewrite (path_up_ext h h') by (intros; apply HF). rewrite HL. apply path_up_root_path; auto; lia. }
  set (h2 := fst (get_path h' n depth)).
  assert (H2 : path_state h h2 /\ exists c, hn_cache (hget h2 n) = Some c).
  { unfold h2, get_path. cbn [fst]. destruct (hn_cache (hget h' n)) as [c|] eqn:Ec.
    - split; [split; [|split]; auto|eauto].
    - assert (G : forall y, hget (upd h' n (HNode (Some (rev (path_up (length h') h' n)))
          (hn_parent (hget h' n)) (hn_val (hget h' n)) (hn_code (hget h' n)) (hn_vec (hget h' n)))) y =
          if n =? y then (HNode (Some (rev (path_up (length h') h' n)))
          (hn_parent (hget h' n)) (hn_val (hget h' n)) (hn_code (hget h' n)) (hn_vec (hget h' n))) else hget h' y).
      { intros y. unfold hget. rewrite nth_upd. destruct (Nat.eqb_spec n y); simpl; auto.
        destruct (Nat.ltb_spec n (length h')); auto. lia. }
      split; [split; [|split]|].
      + rewrite upd_length; auto.
      + intros p. rewrite G. destruct (Nat.eqb_spec n p); [subst; cbn|]; apply HF.
      + intros p c. rewrite G. destruct (Nat.eqb_spec n p); [subst; cbn; intros E; inversion E; subst; auto|apply HC].
      + rewrite G, Nat.eqb_refl. cbn. eauto. }
  destruct H2 as (HS2 & c & Hc). split; [exact HS2|].
  intros p Hp.
  assert (c = p). { destruct HS2 as (_ & _ & HC2). eapply root_path_unique; [apply (HC2 n); exact Hc|exact Hp]. }
  subst c. unfold h2 in Hc. unfold get_path in Hc |- *. cbn [fst snd] in Hc |- *. rewrite Hc.
  destruct (Z.gtb_spec depth (Z.of_nat (length p))).
  - destruct (Z.ltb_spec (Z.of_nat (length p)) 0); [lia|]. destruct (Z.ltb_spec depth 0); [lia|].
    rewrite Nat2Z.id, firstn_all. rewrite firstn_all2 by lia. reflexivity.
  - reflexivity.
Qed.

Lemma get_path_history h history :
  (forall p q, parent_of h p = Some q -> p < q < length h) ->
  (forall p, hn_cache (hget h p) = None) ->
  Forall (fun c => fst c < length h) history ->
  path_state h (fold_left (fun h c => fst (get_path h (fst c) (snd c))) history h).
Proof.
  intros Hup Hca Hh.
  assert (H0 : path_state h h).
  { split; [auto|]. split; [auto|]. intros p c E. rewrite Hca in E; discriminate. }
  revert H0. generalize h at 2 4. induction Hh as [|[x dp] hist Hx Hh IH]; intros h' HS; simpl; auto.
  apply IH. exact (proj1 (get_path_step h h' x dp Hup Hx HS)).
Qed.

Lemma huffman_inv calls dim h set :
  let d := fold_left dict_add calls dict_new in
  huffman_tree d dim = Ret (h, set) ->
  dict_repr (concat calls) d /\ ((0 <= dim)%Z \/ maxid d <= 1) /\ exists F, inv (maxid d) (Z.to_nat dim) (freq_of d) h F.
Proof.
  intros d E.
  assert (R : dict_repr (concat calls) d).
  { unfold d. rewrite dict_adds_concat. apply dict_repr_of. }
  assert (Hd : (0 <= dim)%Z \/ maxid d <= 1).
  { destruct (Z_lt_le_dec dim 0); [|left; lia]. destruct (le_lt_dec (maxid d) 1); [right; lia|].
    destruct (huffman_structure_lemma calls dim) as [HP _]. fold d in HP.
    rewrite HP in E; [discriminate|lia|unfold dict_len; lia]. }
  split; [exact R|]. split; [exact Hd|].
  destruct (huffman_final _ d dim R Hd) as (h' & F & E' & HI & _).
  assert (h' = h) by congruence. subst h'. exists F; auto.
Qed.

Lemma get_path_lemma calls dim h set :
  huffman_tree (fold_left dict_add calls dict_new) dim = Ret (h, set) ->
  forall n, n < length h -> exists p,
  root_path (fun y => hn_parent (hget h y)) p n /\
  forall history : list (nat * Z), Forall (fun c => fst c < length h) history ->
  let h' := fold_left (fun h c => fst (get_path h (fst c) (snd c))) history h in
  (forall depth, snd (get_path h' n depth) =
     if (depth <? 0)%Z then Panic else Ret (firstn (Z.to_nat depth) p)) /\
  (forall x, hn_parent (hget h' x) = hn_parent (hget h x) /\ hn_val (hget h' x) = hn_val (hget h x) /\
             hn_code (hget h' x) = hn_code (hget h x) /\ hn_vec (hget h' x) = hn_vec (hget h x)).
Proof.
  intros E n Hn. destruct (huffman_inv _ _ _ _ E) as (R & Hd & F & HI).
  pose proof (inv_up _ _ _ _ _ HI) as Hup. pose proof (inv_cache _ _ _ _ _ HI) as Hca.
  exists (rev (path_up (length h) h n)).
  assert (HP : root_path (parent_of h) (rev (path_up (length h) h n)) n) by (apply path_up_root_path; auto; lia).
  split; [exact HP|]. intros hist Hh h'.
  pose proof (get_path_history h hist Hup Hca Hh) as HS. fold h' in HS.
  split.
  - intros depth. destruct (get_path_step h h' n depth Hup Hn HS) as (_ & HG). apply HG; auto.
  - apply HS.
Qed.

Definition codes (h : heap) (p : list nat) : list nat := map (fun y => hn_code (hget h y)) (tl p).

(** Full paths of the leaves of the heap [h], by GetPath. *)
Lemma full_paths calls dim h set :
  let d := fold_left dict_add calls dict_new in
  huffman_tree d dim = Ret (h, set) -> 1 <= dict_len d ->
  exists t, inv (maxid d) (Z.to_nat dim) (freq_of d) h [t] /\
   (exists W, StronglySorted le W /\ Permutation W (map (freq_of d) (seq 0 (maxid d))) /\
              bcost (freq_of d) 0 (strip t) = hcost insW (length W) W) /\
   forall i, i < dict_len d -> exists q c, inpath t q c i /\ length q <= length h /\
     codes h q = c /\
     (forall depth, (Z.of_nat (length q) <= depth)%Z -> snd (get_path h i depth) = Ret q).
Proof.
  intros d E Hpos. destruct (huffman_inv _ _ _ _ E) as (R & Hd & _ & _). fold d in Hd, R.
  destruct (huffman_one _ d dim R Hd) as (h' & t & E' & HI & HW); [unfold dict_len in Hpos; lia|].
  fold d in E. assert (h' = h) by congruence. subst h'.
  exists t. split; [exact HI|]. split; [exact HW|]. intros i Hi.
  destruct (inv1_ptrs _ _ _ _ _ HI) as (Hpt & Hnd & Hlen & Hlf & HPl & HR & Hroot & Hnl).
  destruct (inpath_exists t i) as (q & c & Hq); [apply Hpt; unfold dict_len in Hi; lia|].
  exists q, c. split; [exact Hq|].
  assert (Hlt : i < length h) by (unfold dict_len in Hi; lia).
  assert (HRP : root_path (parent_of h) q i) by exact (inpath_root_path _ _ _ _ _ _ _ _ Hq HR Hroot).
  split; [|split].
  - assert (HP : root_path (parent_of h) (rev (path_up (length h) h i)) i)
      by (apply path_up_root_path; [apply (inv_up _ _ _ _ _ HI)|auto|lia]).
    rewrite (root_path_unique _ _ _ _ HRP HP), rev_length.
    clear. generalize (length h) as k. intros k; revert i. induction k; intros i; simpl; auto.
    destruct (hn_parent (hget h i)) as [m|]; simpl; [specialize (IHk m)|]; lia.
  - exact (proj2 (proj2 (inpath_links _ _ _ _ _ _ _ _ Hq HR))).
  - intros depth Hdep.
    destruct (get_path_lemma calls dim h set E i Hlt) as (p & Hp & HG).
    destruct (HG [] ltac:(constructor)) as (HG' & _). cbn [fold_left] in HG'. rewrite HG'.
    rewrite (root_path_unique _ _ _ _ Hp HRP).
    destruct (Z.ltb_spec depth 0); [lia|]. rewrite firstn_all2 by lia. reflexivity.
Qed.

Lemma huffman_prefix_lemma calls dim h set :
  let d := fold_left dict_add calls dict_new in
  huffman_tree d dim = Ret (h, set) ->
  forall i j, i < dict_len d -> j < dict_len d -> i <> j ->
  exists pi pj,
  snd (get_path h i (Z.of_nat (length h))) = Ret pi /\
  snd (get_path h j (Z.of_nat (length h))) = Ret pj /\
  ~ prefix (codes h pi) (codes h pj).
Proof.
  intros d E i j Hi Hj Hne.
  destruct (full_paths calls dim h set E) as (t & HI & _ & HF); [fold d; lia|]. fold d in HI, HF.
  destruct (HF i Hi) as (q & c & Hq & Hl & Hc & HG).
  destruct (HF j Hj) as (q' & c' & Hq' & Hl' & Hc' & HG').
  exists q, q'. split; [apply HG; lia|]. split; [apply HG'; lia|].
  destruct (inv1_ptrs _ _ _ _ _ HI) as (Hpt & Hnd & Hlen & Hlf & HPl & HR & Hroot & Hnl).
  rewrite Hc, Hc'. exact (codes_prefix_free _ _ _ _ _ HR _ _ _ _ _ _ Hq Hq' Hi Hj Hne).
Qed.

Definition path_len (h : heap) (i : nat) : nat :=
  match snd (get_path h i (Z.of_nat (length h))) with Ret p => length p | _ => 0 end.

Fixpoint brename (s : nat -> nat) (t : btree) : btree :=
  match t with BLeaf i => BLeaf (s i) | BNode l r => BNode (brename s l) (brename s r) end.
Lemma brename_cost s g t : forall d, bcost g d (brename s t) = bcost (fun x => g (s x)) d t.
Proof. induction t; intros d; simpl; auto. Qed.
Lemma brename_leaves s t : bleaves (brename s t) = map s (bleaves t).
Proof. induction t; simpl; auto. rewrite map_app; congruence. Qed.

Lemma huffman_cost calls dim h set :
  let d := fold_left dict_add calls dict_new in
  huffman_tree d dim = Ret (h, set) -> 1 <= dict_len d ->
  (exists t0, Permutation (bleaves t0) (seq 0 (dict_len d)) /\
     forall g, bcost g 0 t0 = list_sum (map (fun i => g i * (path_len h i - 1)) (seq 0 (dict_len d)))) /\
  forall t, Permutation (bleaves t) (seq 0 (dict_len d)) ->
    list_sum (map (fun i => freq_of d i * (path_len h i - 1)) (seq 0 (dict_len d))) <= bcost (freq_of d) 0 t.
Proof.
  intros d E Hpos.
  destruct (full_paths calls dim h set E Hpos) as (t & HI & HW & HF). fold d in HI, HW, HF.
  destruct (inv1_ptrs _ _ _ _ _ HI) as (Hpt & Hnd & Hlen & Hlf & HPl & HR & Hroot & Hnl).
  assert (HC : forall g, bcost g 0 (strip t) =
      list_sum (map (fun i => g i * (path_len h i - 1)) (seq 0 (dict_len d)))).
  { intros g.
    rewrite (bcost_leaves _ _ _ _ t HR) with (len := fun x => path_len h x - 1).
    - simpl. apply list_sum_perm, Permutation_map. exact HPl.
    - eapply Permutation_NoDup; [apply Permutation_sym; exact HPl|apply seq_NoDup].
    - intros x Hx. apply Hlf in Hx. destruct (HF x Hx) as (q & c & Hq & Hl & Hc & HG).
      exists q, c. split; auto. unfold path_len. rewrite HG by lia.
      rewrite (inpath_length _ _ _ _ Hq). lia. }
  split.
  - exists (strip t). split; [rewrite strip_leaves; exact HPl|exact HC].
  - intros t' Ht'. rewrite <- HC. destruct HW as (W & HS & HP & HE). rewrite HE.
    apply hcost_opt_tree; auto.
    + apply insW_perm.
    + intros; apply insW_sorted; auto.
    + etransitivity; [apply Permutation_map; exact Ht'|apply Permutation_sym; exact HP].
Qed.

Lemma huffman_optimal_lemma calls dim h set :
  let d := fold_left dict_add calls dict_new in
  huffman_tree d dim = Ret (h, set) -> 1 <= dict_len d ->
  exists (freq : nat -> nat) (path : nat -> list nat),
  (forall i, i < dict_len d -> dict_id_freq d (Z.of_nat i) = Ret (freq i) /\
     forall depth, (Z.of_nat (length h) <= depth)%Z -> snd (get_path h i depth) = Ret (path i)) /\
  forall t, Permutation (bleaves t) (seq 0 (dict_len d)) ->
    list_sum (map (fun i => freq i * (length (path i) - 1)) (seq 0 (dict_len d))) <= bcost freq 0 t.
Proof.
  intros d E Hpos.
  destruct (full_paths calls dim h set E Hpos) as (t & HI & HW & HF). fold d in HI, HW, HF.
  destruct (huffman_cost calls dim h set E Hpos) as (_ & HC). fold d in HC.
  destruct (huffman_inv _ _ _ _ E) as (R & _). fold d in R.
  exists (freq_of d), (fun i => match snd (get_path h i (Z.of_nat (length h))) with Ret p => p | _ => [] end).
  split.
  - intros i Hi. split; [apply (freq_of_spec _ _ _ R)|].
    intros depth Hdep. destruct (HF i Hi) as (q & c & Hq & Hl & Hc & HG).
    rewrite !HG by lia. reflexivity.
  - intros t' Ht'. etransitivity; [|apply HC; exact Ht'].
    apply Nat.eq_le_incl. f_equal. apply map_ext_in. intros i Hi. apply in_seq in Hi.
    unfold path_len. destruct (HF i ltac:(lia)) as (q & c & Hq & Hl & Hc & HG).
    rewrite !HG by lia. reflexivity.
Qed.

Lemma huffman_monotone_lemma calls dim h set :
  let d := fold_left dict_add calls dict_new in
  huffman_tree d dim = Ret (h, set) ->
  forall a b fa fb, a < dict_len d -> b < dict_len d ->
  dict_id_freq d (Z.of_nat a) = Ret fa -> dict_id_freq d (Z.of_nat b) = Ret fb -> fb < fa ->
  exists pa pb, snd (get_path h a (Z.of_nat (length h))) = Ret pa /\
                snd (get_path h b (Z.of_nat (length h))) = Ret pb /\ length pa <= length pb.
Proof.
  intros d E a b fa fb Ha Hb Ea Eb Hlt.
  assert (Hpos : 1 <= dict_len d) by lia.
  destruct (full_paths calls dim h set E Hpos) as (t & HI & HW & HF). fold d in HI, HW, HF.
  destruct (huffman_cost calls dim h set E Hpos) as ((t0 & HP0 & HC0) & HC). fold d in HC, HP0, HC0.
  destruct (huffman_inv _ _ _ _ E) as (R & _). fold d in R.
  rewrite (freq_of_spec _ _ a R) in Ea. rewrite (freq_of_spec _ _ b R) in Eb. inversion Ea; subst fa. inversion Eb; subst fb.
  destruct (HF a Ha) as (q & c & Hq & Hl & Hc & HG).
  destruct (HF b Hb) as (q' & c' & Hq' & Hl' & Hc' & HG').
  exists q, q'. split; [apply HG; lia|]. split; [apply HG'; lia|].
  destruct (le_lt_dec (length q) (length q')) as [|Hgt]; auto. exfalso.
  assert (Pa : path_len h a = length q) by (unfold path_len; rewrite HG by lia; auto).
  assert (Pb : path_len h b = length q') by (unfold path_len; rewrite HG' by lia; auto).
  assert (Lq : 1 <= length q') by (rewrite (inpath_length _ _ _ _ Hq'); lia).
  assert (Hne : a <> b) by (intros ->; lia).
  set (sw := fun x => if x =? a then b else if x =? b then a else x).
  assert (HPs : Permutation (map sw (seq 0 (dict_len d))) (seq 0 (dict_len d))
            /\ exists rest, Permutation (seq 0 (dict_len d)) (a :: b :: rest) /\ ~ In a rest /\ ~ In b rest).
  { assert (Hia : In a (seq 0 (dict_len d))) by (apply in_seq; lia).
    apply in_split in Hia. destruct Hia as (l1 & l2 & El).
    assert (P1 : Permutation (seq 0 (dict_len d)) (a :: l1 ++ l2)) by (rewrite El; apply Permutation_sym, Permutation_middle).
    assert (Hib : In b (l1 ++ l2)).
    { assert (Hx : In b (a :: l1 ++ l2)) by (apply (Permutation_in _ P1); apply in_seq; lia).
      destruct Hx; [congruence|auto]. }
    apply in_split in Hib. destruct Hib as (l3 & l4 & El').
    assert (P2 : Permutation (seq 0 (dict_len d)) (a :: b :: l3 ++ l4)).
    { etransitivity; [exact P1|]. apply perm_skip. rewrite El'. apply Permutation_sym, Permutation_middle. }
    assert (Hn : NoDup (a :: b :: l3 ++ l4)) by (eapply Permutation_NoDup; [exact P2|apply seq_NoDup]).
    inversion Hn as [|? ? Hna Hn']; subst. inversion Hn' as [|? ? Hnb _]; subst.
    assert (Hra : ~ In a (l3 ++ l4)) by (intros Hx; apply Hna; right; auto).
    split; [|exists (l3 ++ l4); auto].
    etransitivity; [apply Permutation_map; exact P2|].
    etransitivity; [|apply Permutation_sym; exact P2].
    cbn [map]. unfold sw at 1 2. rewrite !Nat.eqb_refl. destruct (Nat.eqb_spec b a); [congruence|].
    replace (map sw (l3 ++ l4)) with (l3 ++ l4); [apply perm_swap|].
    rewrite <- (map_id (l3 ++ l4)) at 1. apply map_ext_in. intros x Hx. unfold sw.
    destruct (Nat.eqb_spec x a); [subst; tauto|]. destruct (Nat.eqb_spec x b); [subst; tauto|]. reflexivity. }
  destruct HPs as (HPs & rest & HPr & Hra & Hrb).
  pose proof (HC (brename sw t0)) as Hopt.
  rewrite brename_leaves in Hopt.
  specialize (Hopt ltac:(etransitivity; [apply Permutation_map; exact HP0|exact HPs])).
  rewrite brename_cost, HC0 in Hopt.
  rewrite (list_sum_perm _ _ (Permutation_map _ HPr)) in Hopt.
  rewrite (list_sum_perm (map (fun i => freq_of d (sw i) * (path_len h i - 1)) _) _ (Permutation_map _ HPr)) in Hopt.
  cbn [map] in Hopt. unfold list_sum in Hopt. cbn [fold_right] in Hopt. fold list_sum in Hopt.
  replace (map (fun i => freq_of d (sw i) * (path_len h i - 1)) rest)
    with (map (fun i => freq_of d i * (path_len h i - 1)) rest) in Hopt.
  2:{ apply map_ext_in. intros x Hx. unfold sw.
      destruct (Nat.eqb_spec x a); [subst; tauto|]. destruct (Nat.eqb_spec x b); [subst; tauto|]. reflexivity. }
  unfold sw in Hopt. rewrite !Nat.eqb_refl in Hopt. destruct (Nat.eqb_spec b a); [congruence|].
  rewrite Pa, Pb in Hopt. 
  set (S0 := fold_right _ _ _) in Hopt. nia.
Qed.
