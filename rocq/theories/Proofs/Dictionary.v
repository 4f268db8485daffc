(** * The dictionary invariant. *)
From Verif.Lib Require Import Go ListFacts.
From Verif.Model Require Import Dictionary.
From Verif.Spec Require Import Words.
From Verif.Lib Require Import Tac.

Lemma In_distinct w ws : In w (distinct ws) <-> In w ws.
Proof.
  induction ws as [|v ws IH]; simpl; [tauto|].
  split.
  - intros [->|H]; auto. apply in_remove in H; tauto.
  - intros [->|H]; auto.
    destruct (gostring_eq_dec v w); auto.
    right; apply in_in_remove; [congruence|tauto].
Qed.

Lemma remove_NoDup {A} eqd (x : A) l : NoDup l -> NoDup (remove eqd x l).
Proof.
  induction l as [|y l IH]; simpl; intros H; auto.
  inversion H; subst. destruct (eqd x y); auto.
  constructor; auto. intros HIn; apply in_remove in HIn; tauto.
Qed.

Lemma NoDup_distinct ws : NoDup (distinct ws).
Proof.
  induction ws as [|v ws IH]; simpl; constructor.
  - apply remove_In.
  - now apply remove_NoDup.
Qed.

Lemma remove_app_single {A} eqd (x y : A) l :
  remove eqd x (l ++ [y]) = remove eqd x l ++ (if eqd x y then [] else [y]).
Proof.
  induction l as [|z l IH]; simpl.
  - destruct (eqd x y); reflexivity.
  - destruct (eqd x z); simpl; rewrite IH; reflexivity.
Qed.

Lemma distinct_snoc ws w :
  distinct (ws ++ [w]) =
  if in_dec gostring_eq_dec w ws then distinct ws else distinct ws ++ [w].
Proof.
  induction ws as [|v ws IH]; [reflexivity|].
  cbn [app distinct]. rewrite IH.
  destruct (in_dec gostring_eq_dec w ws) as [Hin|Hni].
  - destruct (in_dec gostring_eq_dec w (v :: ws)) as [_|n]; [reflexivity|].
    exfalso; apply n; right; auto.
  - rewrite remove_app_single.
    destruct (gostring_eq_dec v w) as [->|Hne].
    + destruct (in_dec gostring_eq_dec w (w :: ws)) as [_|n];
        [rewrite app_nil_r; reflexivity | exfalso; apply n; left; reflexivity].
    + destruct (in_dec gostring_eq_dec w (v :: ws)) as [i|_]; [|reflexivity].
      exfalso; destruct i; congruence.
Qed.

Lemma occurrences_snoc w v ws :
  occurrences w (ws ++ [v]) = occurrences w ws + (if gostring_eq_dec v w then 1 else 0).
Proof.
  unfold occurrences. rewrite count_occ_app. simpl.
  destruct (gostring_eq_dec v w); reflexivity.
Qed.

(** Position of a word in a list. *)
Fixpoint index_of (w : gostring) (l : list gostring) : option nat :=
  match l with
  | [] => None
  | v :: l' => if gostring_eq_dec w v then Some 0 else option_map S (index_of w l')
  end.

Lemma index_of_Some w l i : NoDup l -> (index_of w l = Some i <-> nth_error l i = Some w).
Proof.
  intros Hnd; revert i; induction l as [|v l IH]; intros i; simpl.
  - split; [discriminate|destruct i; discriminate].
  - inversion Hnd as [|? ? Hni Hnd']; subst.
    destruct (gostring_eq_dec w v) as [->|Hne].
    + destruct i as [|i]; simpl; [tauto|].
      split; [discriminate|]. intros H; exfalso; apply Hni; now apply nth_error_In in H.
    + destruct i as [|i]; simpl.
      * split; intros H; [|congruence]. destruct (index_of w l); discriminate.
      * rewrite <- IH by auto. destruct (index_of w l); simpl; split; congruence.
Qed.

Lemma index_of_None w l : index_of w l = None <-> ~ In w l.
Proof.
  induction l as [|v l IH]; simpl; [tauto|].
  destruct (gostring_eq_dec w v) as [->|Hne].
  - split; [discriminate|tauto].
  - destruct (index_of w l) eqn:E; simpl; split; try discriminate; try tauto.
    + intros H; exfalso; apply H; right. destruct (in_dec gostring_eq_dec w l); auto.
      apply IH in n0; discriminate.
    + intros _ [|]; [congruence|]. now apply IH.
Qed.

Lemma index_of_app w l v :
  index_of w (l ++ [v]) =
  match index_of w l with
  | Some i => Some i
  | None => if gostring_eq_dec w v then Some (length l) else None
  end.
Proof.
  induction l as [|u l IH]; simpl.
  - destruct (gostring_eq_dec w v); reflexivity.
  - destruct (gostring_eq_dec w u); [reflexivity|].
    rewrite IH. destruct (index_of w l); simpl; [reflexivity|].
    destruct (gostring_eq_dec w v); reflexivity.
Qed.

(** [d] is the dictionary of the words [ws]. *)
Record dict_repr (ws : list gostring) (d : dict) : Prop := {
  repr_words : id2word d = distinct ws;
  repr_max : maxid d = length (distinct ws);
  repr_cfs : cfs d = map (fun w => occurrences w ws) (distinct ws);
  repr_map : forall w, mget gostring_eq_dec w (word2id d) = index_of w (distinct ws)
}.

Lemma dict_repr_new : dict_repr [] dict_new.
Proof. constructor; reflexivity. Qed.

Lemma map_ext_upd (f g : gostring -> nat) l w i :
  NoDup l -> nth_error l i = Some w ->
  (forall v, v <> w -> g v = f v) ->
  upd (map f l) i (g w) = map g l.
Proof.
  revert i; induction l as [|v l IH]; intros i Hnd Hi Hfg; [destruct i; discriminate|].
  inversion Hnd as [|? ? Hni Hnd']; subst.
  destruct i as [|i]; simpl in *.
  - inversion Hi; subst. f_equal. apply map_ext_in. intros a Ha. symmetry; apply Hfg.
    intros ->; auto.
  - rewrite (IH i) by auto. f_equal. symmetry; apply Hfg.
    intros ->. apply Hni. now apply nth_error_In in Hi.
Qed.

Lemma dict_repr_add1 ws d w : dict_repr ws d -> dict_repr (ws ++ [w]) (dict_add1 d w).
Proof.
  intros [Hw Hm Hc Hg]. unfold dict_add1. rewrite Hg.
  pose proof (NoDup_distinct ws) as Hnd.
  destruct (index_of w (distinct ws)) as [i|] eqn:E.
  - assert (Hin : In w ws).
    { apply index_of_Some in E; auto. apply nth_error_In in E. now apply In_distinct. }
    assert (Hd : distinct (ws ++ [w]) = distinct ws).
    { rewrite distinct_snoc. destruct (in_dec gostring_eq_dec w ws); tauto. }
    apply index_of_Some in E; auto.
    constructor; cbn [id2word maxid cfs word2id]; rewrite ?Hd; auto.
    rewrite Hc.
    assert (Hn : nth i (map (fun w => occurrences w ws) (distinct ws)) 0 = occurrences w ws).
    { apply nth_error_nth. rewrite nth_error_map, E. reflexivity. }
    rewrite Hn.
    replace (S (occurrences w ws)) with (occurrences w (ws ++ [w])).
    2:{ rewrite occurrences_snoc. destruct (gostring_eq_dec w w); [lia|congruence]. }
    apply (map_ext_upd (fun w0 => occurrences w0 ws) (fun w0 => occurrences w0 (ws ++ [w]))); auto.
    intros v Hv. rewrite occurrences_snoc. destruct (gostring_eq_dec w v); [congruence|lia].
  - assert (Hni : ~ In w ws).
    { apply index_of_None in E. now rewrite In_distinct in E. }
    assert (Hd : distinct (ws ++ [w]) = distinct ws ++ [w]).
    { rewrite distinct_snoc. destruct (in_dec gostring_eq_dec w ws); tauto. }
    constructor; cbn [id2word maxid cfs word2id]; rewrite ?Hd.
    + now rewrite Hw.
    + rewrite app_length, Hm; simpl; lia.
    + rewrite map_app, Hc. f_equal.
      * apply map_ext_in. intros v Hv. rewrite occurrences_snoc.
        destruct (gostring_eq_dec w v) as [->|]; [|lia].
        apply (proj1 (In_distinct _ _)) in Hv; tauto.
      * simpl. rewrite occurrences_snoc. destruct (gostring_eq_dec w w); [|congruence].
        unfold occurrences. apply (count_occ_not_In gostring_eq_dec) in Hni. rewrite Hni. reflexivity.
    + intros v. rewrite mget_mset, index_of_app, Hg.
      destruct (gostring_eq_dec w v) as [->|Hne].
      * rewrite E. destruct (gostring_eq_dec v v); congruence.
      * destruct (index_of v (distinct ws)); auto.
        destruct (gostring_eq_dec v w); congruence.
Qed.

Lemma dict_repr_add ws d vs : dict_repr ws d -> dict_repr (ws ++ vs) (dict_add d vs).
Proof.
  revert ws d; induction vs as [|v vs IH]; intros ws d H; simpl.
  - now rewrite app_nil_r.
  - replace (ws ++ v :: vs) with ((ws ++ [v]) ++ vs) by (rewrite <- app_assoc; reflexivity).
    apply IH. now apply dict_repr_add1.
Qed.

Lemma dict_repr_of ws : dict_repr ws (dict_add dict_new ws).
Proof. apply (dict_repr_add [] dict_new ws dict_repr_new). Qed.

Lemma dict_adds_concat calls d : fold_left dict_add calls d = dict_add d (concat calls).
Proof.
  revert d; induction calls as [|c calls IH]; intros d; simpl; auto.
  rewrite IH. unfold dict_add. now rewrite fold_left_app.
Qed.

(** ** Consequences for the API *)
Section Repr.
  Variables (ws : list gostring) (d : dict).
  Hypothesis R : dict_repr ws d.

  Lemma repr_len : dict_len d = length (distinct ws).
  Proof. apply (repr_max _ _ R). Qed.

  Lemma repr_word_lt i : i < length (distinct ws) ->
    exists w, nth_error (distinct ws) i = Some w /\ dict_word d (Z.of_nat i) = Ret (w, true).
  Proof.
    intros Hi. destruct (nth_error (distinct ws) i) as [w|] eqn:E.
    - exists w; split; auto. unfold dict_word, zindex. rewrite (repr_max _ _ R), (repr_words _ _ R).
      replace (Z.of_nat i >=? Z.of_nat (length (distinct ws)))%Z with false by lia.
      replace (Z.of_nat i <? 0)%Z with false by lia.
      rewrite Nat2Z.id, E. reflexivity.
    - apply nth_error_None in E; lia.
  Qed.

  Lemma repr_word_ge i : (Z.of_nat (length (distinct ws)) <= i)%Z -> dict_word d i = Ret ([], false).
  Proof.
    intros Hi. unfold dict_word. rewrite (repr_max _ _ R).
    replace (i >=? Z.of_nat (length (distinct ws)))%Z with true by lia. reflexivity.
  Qed.

  Lemma repr_word_neg i : (i < 0)%Z -> dict_word d i = Panic.
  Proof.
    intros Hi. unfold dict_word, zindex. rewrite (repr_max _ _ R).
    replace (i >=? Z.of_nat (length (distinct ws)))%Z with false by lia.
    replace (i <? 0)%Z with true by lia. reflexivity.
  Qed.

  Lemma repr_id_in w : In w ws ->
    exists i, dict_id d w = (i, true) /\ nth_error (distinct ws) i = Some w.
  Proof.
    intros H. unfold dict_id. rewrite (repr_map _ _ R).
    destruct (index_of w (distinct ws)) as [i|] eqn:E.
    - exists i; split; auto. apply index_of_Some in E; auto. apply NoDup_distinct.
    - apply index_of_None in E. rewrite In_distinct in E. tauto.
  Qed.

  Lemma repr_id_notin w : ~ In w ws -> dict_id d w = (0, false).
  Proof.
    intros H. unfold dict_id. rewrite (repr_map _ _ R).
    destruct (index_of w (distinct ws)) as [i|] eqn:E; auto.
    apply index_of_Some in E; [|apply NoDup_distinct].
    apply nth_error_In in E. now apply (proj1 (In_distinct _ _)) in E.
  Qed.

  Lemma repr_word_freq w : dict_word_freq d w = Ret (occurrences w ws).
  Proof.
    unfold dict_word_freq. rewrite (repr_map _ _ R).
    destruct (index_of w (distinct ws)) as [i|] eqn:E.
    - apply index_of_Some in E; [|apply NoDup_distinct].
      rewrite (repr_cfs _ _ R), nth_error_map, E. reflexivity.
    - apply index_of_None in E. rewrite In_distinct in E.
      apply (count_occ_not_In gostring_eq_dec) in E. unfold occurrences. now rewrite E.
  Qed.

  Lemma repr_id_freq i w : nth_error (distinct ws) i = Some w ->
    dict_id_freq d (Z.of_nat i) = Ret (occurrences w ws).
  Proof.
    intros H. assert (i < length (distinct ws)) by (apply nth_error_Some; congruence).
    unfold dict_id_freq, zindex. rewrite (repr_max _ _ R), (repr_cfs _ _ R).
    replace (Z.of_nat i >=? Z.of_nat (length (distinct ws)))%Z with false by lia.
    replace (Z.of_nat i <? 0)%Z with false by lia.
    rewrite Nat2Z.id, nth_error_map, H. reflexivity.
  Qed.

  Lemma repr_id_freq_ge i : (Z.of_nat (length (distinct ws)) <= i)%Z -> dict_id_freq d i = Ret 0.
  Proof.
    intros Hi. unfold dict_id_freq. rewrite (repr_max _ _ R).
    replace (i >=? Z.of_nat (length (distinct ws)))%Z with true by lia. reflexivity.
  Qed.

  Lemma repr_id_freq_neg i : (i < 0)%Z -> dict_id_freq d i = Panic.
  Proof.
    intros Hi. unfold dict_id_freq, zindex. rewrite (repr_max _ _ R).
    replace (i >=? Z.of_nat (length (distinct ws)))%Z with false by lia.
    replace (i <? 0)%Z with true by lia. reflexivity.
  Qed.
End Repr.

(** The occurrence counts of the distinct words add up to the number of words. *)
Lemma list_sum_map_add {A} (f g : A -> nat) l :
  list_sum (map (fun x => f x + g x) l) = list_sum (map f l) + list_sum (map g l).
Proof. induction l as [|x l IH]; simpl; lia. Qed.

Lemma list_sum_indicator v l : NoDup l ->
  list_sum (map (fun w => if gostring_eq_dec v w then 1 else 0) l) =
  if in_dec gostring_eq_dec v l then 1 else 0.
Proof.
  induction l as [|x l IH]; intros Hnd; [reflexivity|].
  inversion Hnd as [|? ? Hni Hnd']; subst. cbn [map list_sum fold_right].
  fold (list_sum (map (fun w => if gostring_eq_dec v w then 1 else 0) l)).
  rewrite IH by auto.
  destruct (gostring_eq_dec v x) as [->|Hne].
  - destruct (in_dec gostring_eq_dec x l); [tauto|].
    destruct (in_dec gostring_eq_dec x (x :: l)) as [|n']; [reflexivity|].
    exfalso; apply n'; left; auto.
  - destruct (in_dec gostring_eq_dec v l) as [i|n];
    destruct (in_dec gostring_eq_dec v (x :: l)) as [i'|n']; auto.
    + exfalso; apply n'; right; auto.
    + exfalso; destruct i'; [congruence|auto].
Qed.

Lemma occurrences_sum_gen ws l : NoDup l -> (forall w, In w ws -> In w l) ->
  list_sum (map (fun w => occurrences w ws) l) = length ws.
Proof.
  intros Hnd; induction ws as [|v ws IH]; intros Hall.
  - clear. induction l as [|x l IHl]; simpl; auto.
  - assert (E : map (fun w => occurrences w (v :: ws)) l =
               map (fun w => (if gostring_eq_dec v w then 1 else 0) + occurrences w ws) l).
    { apply map_ext. intros a. unfold occurrences; simpl.
      destruct (gostring_eq_dec v a); reflexivity. }
    rewrite E, list_sum_map_add, list_sum_indicator by auto.
    destruct (in_dec gostring_eq_dec v l) as [_|n].
    + rewrite IH; [reflexivity|]. intros w Hw; apply Hall; right; auto.
    + exfalso; apply n, Hall; left; auto.
Qed.

Lemma occurrences_sum ws :
  list_sum (map (fun w => occurrences w ws) (distinct ws)) = length ws.
Proof.
  apply occurrences_sum_gen; [apply NoDup_distinct|]. intros w; apply In_distinct.
Qed.

(** Earlier ids survive later additions. *)
Lemma distinct_app_prefix ws vs : exists tl, distinct (ws ++ vs) = distinct ws ++ tl.
Proof.
  revert ws; induction vs as [|v vs IH]; intros ws.
  - exists []. now rewrite !app_nil_r.
  - destruct (IH (ws ++ [v])) as [tl Htl]. rewrite <- app_assoc in Htl. simpl in Htl.
    rewrite Htl, distinct_snoc. destruct (in_dec gostring_eq_dec v ws).
    + now exists tl.
    + exists (v :: tl). now rewrite <- app_assoc.
Qed.

(** The id of a word is the number of distinct words before its first occurrence. *)
Lemma distinct_first l1 w l2 : ~ In w l1 ->
  nth_error (distinct (l1 ++ w :: l2)) (length (distinct l1)) = Some w.
Proof.
  intros Hni. destruct (distinct_app_prefix (l1 ++ [w]) l2) as [tl Htl].
  rewrite <- app_assoc in Htl. simpl in Htl. rewrite Htl, distinct_snoc.
  destruct (in_dec gostring_eq_dec w l1); [tauto|].
  rewrite <- app_assoc. rewrite nth_error_app2 by lia.
  rewrite Nat.sub_diag. reflexivity.
Qed.

Lemma dictionary_ids_lemma calls :
  let d := fold_left dict_add calls dict_new in
  let ws := concat calls in
  dict_len d = length (distinct ws) /\
  (forall l1 w l2, ws = l1 ++ w :: l2 -> ~ In w l1 ->
     dict_id d w = (length (distinct l1), true)) /\
  (forall w, ~ In w ws -> dict_id d w = (0, false)) /\
  (forall w i, dict_id d w = (i, true) <-> dict_word d (Z.of_nat i) = Ret (w, true)) /\
  (forall i, i < dict_len d -> exists w, In w ws /\ dict_word d (Z.of_nat i) = Ret (w, true)) /\
  (forall z, (Z.of_nat (dict_len d) <= z)%Z -> dict_word d z = Ret ([], false)) /\
  (forall z, (z < 0)%Z -> dict_word d z = Panic).
Proof.
  intros d ws. assert (R : dict_repr ws d).
  { unfold d. rewrite dict_adds_concat. apply dict_repr_of. }
  pose proof (NoDup_distinct ws) as Hnd.
  split; [apply (repr_len _ _ R)|].
  split.
  { intros l1 w l2 Hws Hni. destruct (repr_id_in _ _ R w) as [i [Hi Hn]].
    { rewrite Hws. apply in_elt. }
    rewrite Hi. f_equal.
    pose proof (distinct_first l1 w l2 Hni) as Hf. rewrite <- Hws in Hf.
    apply (proj1 (NoDup_nth_error _) Hnd); [|congruence].
    apply nth_error_Some; congruence. }
  split; [intros w; apply (repr_id_notin _ _ R)|].
  split.
  { intros w i. split.
    - intros H. destruct (in_dec gostring_eq_dec w ws) as [Hin|Hni].
      + destruct (repr_id_in _ _ R w Hin) as [j [Hj Hn]]. assert (j = i) by congruence; subst j.
        assert (Hl : i < length (distinct ws)) by (apply nth_error_Some; congruence).
        destruct (repr_word_lt _ _ R i Hl) as [v [Hv Hw]]. congruence.
      + rewrite (repr_id_notin _ _ R w Hni) in H. congruence.
    - intros H. destruct (Nat.lt_ge_cases i (length (distinct ws))) as [Hl|Hl].
      + destruct (repr_word_lt _ _ R i Hl) as [v [Hv Hw]].
        assert (v = w) by congruence; subst v.
        assert (Hin : In w ws) by (apply In_distinct; now apply nth_error_In in Hv).
        destruct (repr_id_in _ _ R w Hin) as [j [Hj Hn]]. rewrite Hj. f_equal.
        apply (proj1 (NoDup_nth_error _) Hnd); [|congruence].
        apply nth_error_Some; congruence.
      + rewrite (repr_word_ge _ _ R) in H by lia. congruence. }
  split.
  { intros i Hi. rewrite (repr_len _ _ R) in Hi.
    destruct (repr_word_lt _ _ R i Hi) as [w [Hn Hw]]. exists w; split; auto.
    apply In_distinct. now apply nth_error_In in Hn. }
  split.
  { intros z Hz. rewrite (repr_len _ _ R) in Hz. now apply (repr_word_ge _ _ R). }
  intros z Hz. now apply (repr_word_neg _ _ R).
Qed.

Lemma dictionary_freq_lemma calls :
  let d := fold_left dict_add calls dict_new in
  let ws := concat calls in
  (forall w, dict_word_freq d w = Ret (occurrences w ws)) /\
  (forall i w, dict_word d (Z.of_nat i) = Ret (w, true) ->
     dict_id_freq d (Z.of_nat i) = Ret (occurrences w ws) /\ 1 <= occurrences w ws) /\
  (forall z, (Z.of_nat (dict_len d) <= z)%Z -> dict_id_freq d z = Ret 0) /\
  (forall z, (z < 0)%Z -> dict_id_freq d z = Panic) /\
  (exists fs, Forall2 (fun i f => dict_id_freq d (Z.of_nat i) = Ret f) (seq 0 (dict_len d)) fs
              /\ list_sum fs = length ws).
Proof.
  intros d ws. assert (R : dict_repr ws d).
  { unfold d. rewrite dict_adds_concat. apply dict_repr_of. }
  split; [apply (repr_word_freq _ _ R)|].
  split.
  { intros i w H. destruct (Nat.lt_ge_cases i (length (distinct ws))) as [Hl|Hl].
    - destruct (repr_word_lt _ _ R i Hl) as [v [Hv Hw]].
      assert (v = w) by congruence; subst v. split.
      + now apply (repr_id_freq _ _ R).
      + apply nth_error_In in Hv. apply (proj1 (In_distinct _ _)) in Hv.
        now apply (count_occ_In gostring_eq_dec) in Hv.
    - rewrite (repr_word_ge _ _ R) in H by lia. congruence. }
  split.
  { intros z Hz. rewrite (repr_len _ _ R) in Hz. now apply (repr_id_freq_ge _ _ R). }
  split; [intros z; apply (repr_id_freq_neg _ _ R)|].
  exists (map (fun w => occurrences w ws) (distinct ws)). split; [|apply occurrences_sum].
  rewrite (repr_len _ _ R).
  assert (G : forall l k, (forall i w, nth_error l i = Some w -> nth_error (distinct ws) (k + i) = Some w) ->
    Forall2 (fun i f => dict_id_freq d (Z.of_nat i) = Ret f) (seq k (length l))
      (map (fun w => occurrences w ws) l)).
  { induction l as [|w l IH]; intros k Hk; simpl; constructor.
    - apply (repr_id_freq _ _ R). specialize (Hk 0 w eq_refl). now rewrite Nat.add_0_r in Hk.
    - apply IH. intros i v Hi. specialize (Hk (S i) v Hi). now rewrite Nat.add_succ_r in Hk. }
  apply G. intros i w H; exact H.
Qed.

Lemma dictionary_stable_lemma calls more :
  let d := fold_left dict_add calls dict_new in
  let d' := fold_left dict_add more d in
  (forall w i, dict_id d w = (i, true) -> dict_id d' w = (i, true)) /\
  (forall z w, dict_word d z = Ret (w, true) -> dict_word d' z = Ret (w, true)) /\
  (forall w f, dict_word_freq d w = Ret f ->
     dict_word_freq d' w = Ret (f + occurrences w (concat more))).
Proof.
  intros d d'.
  assert (R : dict_repr (concat calls) d).
  { unfold d. rewrite dict_adds_concat. apply dict_repr_of. }
  assert (R' : dict_repr (concat calls ++ concat more) d').
  { unfold d'. rewrite dict_adds_concat. now apply dict_repr_add. }
  destruct (distinct_app_prefix (concat calls) (concat more)) as [tl Htl].
  split.
  { intros w i. unfold dict_id. rewrite (repr_map _ _ R), (repr_map _ _ R').
    destruct (index_of w (distinct (concat calls))) as [j|] eqn:E; [|intros; congruence].
    intros Hj. assert (j = i) by congruence; subst j.
    apply index_of_Some in E; [|apply NoDup_distinct].
    assert (E' : index_of w (distinct (concat calls ++ concat more)) = Some i).
    { apply index_of_Some; [apply NoDup_distinct|]. rewrite Htl.
      rewrite nth_error_app1; auto. apply nth_error_Some; congruence. }
    now rewrite E'. }
  split.
  { intros z w. unfold dict_word, zindex.
    rewrite (repr_max _ _ R), (repr_max _ _ R'), (repr_words _ _ R), (repr_words _ _ R'), Htl.
    rewrite app_length.
    destruct (Z.geb_spec z (Z.of_nat (length (distinct (concat calls))))); [congruence|].
    destruct (Z.ltb_spec z 0); [congruence|].
    destruct (nth_error (distinct (concat calls)) (Z.to_nat z)) as [v|] eqn:E; [|congruence].
    intros Hv. replace (z >=? _)%Z with false by lia.
    rewrite nth_error_app1 by lia. rewrite E. exact Hv. }
  intros w f. rewrite (repr_word_freq _ _ R), (repr_word_freq _ _ R').
  intros H. inversion H; subst. f_equal. unfold occurrences. apply count_occ_app.
Qed.
