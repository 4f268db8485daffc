(** * Facts about lists, slice updates and Go maps. *)
From Verif.Lib Require Import Go.
From Coq Require Import Lia Permutation.

Lemma upd_length {A} (l : list A) i x : length (upd l i x) = length l.
Proof. revert i; induction l as [|y l IH]; intros [|i]; simpl; auto. Qed.

Lemma upd_nth_error_eq {A} (l : list A) i x : i < length l -> nth_error (upd l i x) i = Some x.
Proof. revert i; induction l as [|y l IH]; intros [|i] H; simpl in *; try lia; auto.
  apply IH; lia. Qed.

Lemma upd_nth_error_neq {A} (l : list A) i j x : i <> j -> nth_error (upd l i x) j = nth_error l j.
Proof. revert i j; induction l as [|y l IH]; intros [|i] [|j] H; simpl; auto; try congruence. Qed.

Lemma upd_out {A} (l : list A) i x : length l <= i -> upd l i x = l.
Proof. revert i; induction l as [|y l IH]; intros [|i] H; simpl in *; auto; try lia.
  rewrite IH; auto; lia. Qed.

Lemma upd_app_mid {A} (l1 l2 : list A) y x : upd (l1 ++ y :: l2) (length l1) x = l1 ++ x :: l2.
Proof. induction l1 as [|z l1 IH]; simpl; congruence. Qed.

Lemma nth_error_upd {A} (l : list A) i j x :
  nth_error (upd l i x) j = if (Nat.eqb i j && Nat.ltb i (length l))%bool then Some x else nth_error l j.
Proof.
  destruct (Nat.eqb_spec i j) as [->|Hne]; simpl.
  - destruct (Nat.ltb_spec j (length l)).
    + now apply upd_nth_error_eq.
    + rewrite upd_out by lia; reflexivity.
  - now apply upd_nth_error_neq.
Qed.

Lemma nth_upd {A} (l : list A) i j x d :
  nth j (upd l i x) d = if (Nat.eqb i j && Nat.ltb i (length l))%bool then x else nth j l d.
Proof.
  revert i j; induction l as [|y l IH]; intros i j.
  - destruct i, j; cbn; rewrite ?andb_false_r; reflexivity.
  - destruct i as [|i], j as [|j]; try reflexivity.
    cbn [upd nth length]. rewrite IH. reflexivity.
Qed.

Lemma nth_ext_error {A} (l1 l2 : list A) :
  (forall i, nth_error l1 i = nth_error l2 i) -> l1 = l2.
Proof.
  revert l2; induction l1 as [|x l1 IH]; intros [|y l2] H; auto.
  - specialize (H 0); discriminate.
  - specialize (H 0); discriminate.
  - f_equal.
    + specialize (H 0); simpl in H; congruence.
    + apply IH; intros i; exact (H (S i)).
Qed.

Lemma gseqb_spec x y : reflect (x = y) (gseqb x y).
Proof. unfold gseqb; destruct (gostring_eq_dec x y); constructor; auto. Qed.

Lemma gseqb_refl x : gseqb x x = true.
Proof. destruct (gseqb_spec x x); congruence. Qed.

Section MapFacts.
  Context {K V : Type} (eqd : forall x y : K, {x = y} + {x <> y}).

  Lemma mget_mset_eq k (v : V) m : mget eqd k (mset eqd k v m) = Some v.
  Proof.
    induction m as [|[k' v'] m IH]; simpl.
    - destruct (eqd k k); congruence.
    - destruct (eqd k k') as [->|Hne]; simpl.
      + destruct (eqd k' k'); congruence.
      + destruct (eqd k k'); congruence.
  Qed.

  Lemma mget_mset_neq k k' (v : V) m : k <> k' -> mget eqd k' (mset eqd k v m) = mget eqd k' m.
  Proof.
    intros Hne; induction m as [|[k2 v2] m IH]; simpl.
    - destruct (eqd k' k); congruence.
    - destruct (eqd k k2) as [->|Hne2]; simpl.
      + destruct (eqd k' k2); congruence.
      + destruct (eqd k' k2); congruence.
  Qed.

  Lemma mget_mset k k' (v : V) m :
    mget eqd k' (mset eqd k v m) = if eqd k k' then Some v else mget eqd k' m.
  Proof.
    destruct (eqd k k') as [->|Hne].
    - apply mget_mset_eq.
    - now apply mget_mset_neq.
  Qed.

  Lemma mget_In k (v : V) m : mget eqd k m = Some v -> In (k, v) m.
  Proof.
    induction m as [|[k' v'] m IH]; simpl; [discriminate|].
    destruct (eqd k k') as [->|Hne]; intros H.
    - left; congruence.
    - right; auto.
  Qed.

  Lemma mget_None_notin k (m : list (K * V)) : mget eqd k m = None <-> ~ In k (map fst m).
  Proof.
    induction m as [|[k' v'] m IH]; simpl; [intuition|].
    destruct (eqd k k') as [->|Hne].
    - split; [discriminate|]. intros H; exfalso; apply H; auto.
    - rewrite IH. split; intros H; [intros [E|E]; [congruence|auto]|auto].
  Qed.

  Lemma In_mget k (v : V) m : NoDup (map fst m) -> In (k, v) m -> mget eqd k m = Some v.
  Proof.
    induction m as [|[k' v'] m IH]; simpl; [tauto|].
    intros Hnd [E|HIn].
    - inversion E; subst. destruct (eqd k k); congruence.
    - inversion Hnd as [|? ? Hni Hnd']; subst.
      destruct (eqd k k') as [->|Hne]; [|auto].
      exfalso; apply Hni. now apply (in_map fst) in HIn.
  Qed.

  Lemma mset_keys k (v : V) m :
    map fst (mset eqd k v m) =
    if in_dec eqd k (map fst m) then map fst m else map fst m ++ [k].
  Proof.
    induction m as [|[k' v'] m IH]; [reflexivity|].
    cbn [mset map fst]. destruct (eqd k k') as [->|Hne].
    - cbn [map fst]. destruct (in_dec eqd k' (k' :: map fst m)) as [_|n]; [reflexivity|].
      exfalso; apply n; left; reflexivity.
    - cbn [map fst]. rewrite IH.
      destruct (in_dec eqd k (map fst m)) as [i|n];
      destruct (in_dec eqd k (k' :: map fst m)) as [i'|n']; auto.
      + exfalso; apply n'; right; auto.
      + exfalso; destruct i' as [E|i']; [congruence|auto].
  Qed.

  Lemma NoDup_app_single {A} (l : list A) x : NoDup l -> ~ In x l -> NoDup (l ++ [x]).
  Proof.
    intros Hnd Hni. apply (Permutation_NoDup (l := x :: l)).
    - apply Permutation_cons_append.
    - now constructor.
  Qed.

  Lemma mset_NoDup k (v : V) m : NoDup (map fst m) -> NoDup (map fst (mset eqd k v m)).
  Proof.
    intros H. rewrite mset_keys. destruct (in_dec eqd k (map fst m)); auto.
    now apply NoDup_app_single.
  Qed.

  Lemma In_mset k k' (v v' : V) m :
    In (k', v') (mset eqd k v m) -> (k' = k /\ v' = v) \/ In (k', v') m.
  Proof.
    induction m as [|[k2 v2] m IH]; simpl.
    - intros [E|[]]; inversion E; auto.
    - destruct (eqd k k2) as [->|Hne]; simpl; intros [E|HIn].
      + inversion E; auto.
      + auto.
      + auto.
      + destruct (IH HIn); auto.
  Qed.
End MapFacts.
