(** Trees from lengths that satisfy the Kraft inequality. *)
From Coq Require Import List Arith Lia Permutation.
From Verif.Spec Require Import Tree.
Import ListNotations.

(** Leaves with their depths. *)
Fixpoint bdepths (d : nat) (t : btree) : list (nat * nat) :=
  match t with BLeaf i => [(i, d)] | BNode l r => bdepths (S d) l ++ bdepths (S d) r end.
Lemma bdepths_fst d t : map fst (bdepths d t) = bleaves t.
Proof. revert d. induction t as [i|l IHl r IHr]; intros d; [reflexivity|]. cbn. rewrite map_app, IHl, IHr. reflexivity. Qed.
Lemma bcost_depths f d t : bcost f d t = list_sum (map (fun x => f (fst x) * snd x) (bdepths d t)).
Proof. revert d. induction t as [i|l IHl r IHr]; intros d; [cbn [bcost bdepths map list_sum fold_right fst snd]; lia|]. cbn [bcost bdepths]. rewrite map_app, list_sum_app, IHl, IHr. reflexivity. Qed.

(** [(id, e)]: a leaf of weight 2^e. *)
Definition wsum (l : list (nat * nat)) : nat := list_sum (map (fun x => 2 ^ snd x) l).
Lemma wsum_cons x l : wsum (x :: l) = 2 ^ snd x + wsum l. Proof. reflexivity. Qed.
Lemma wsum_app a b : wsum (a ++ b) = wsum a + wsum b. Proof. unfold wsum. rewrite map_app, list_sum_app. reflexivity. Qed.
Lemma wsum_perm a b : Permutation a b -> wsum a = wsum b.
Proof. unfold wsum, list_sum. induction 1; cbn [map fold_right] in *; lia. Qed.
Lemma pow_pos e : 1 <= 2 ^ e. Proof. induction e; cbn; lia. Qed.

Inductive desc : list (nat * nat) -> Prop :=
| desc_nil : desc []
| desc_cons x l : desc l -> Forall (fun y => snd y <= snd x) l -> desc (x :: l).

Fixpoint ins (x : nat * nat) l := match l with [] => [x] | y :: r => if snd y <=? snd x then x :: y :: r else y :: ins x r end.
Lemma ins_perm x l : Permutation (x :: l) (ins x l).
Proof. induction l as [|y r IH]; [reflexivity|]. cbn. destruct (_ <=? _); [reflexivity|]. etransitivity; [apply perm_swap|]. constructor. exact IH. Qed.
Lemma ins_desc x l : desc l -> desc (ins x l).
Proof.
  induction 1 as [|y l H IH F]; cbn; [repeat constructor|]. destruct (Nat.leb_spec (snd y) (snd x)).
  - constructor; [constructor; auto|]. constructor; [auto|]. eapply Forall_impl; [|exact F]. cbn. lia.
  - constructor; [exact IH|]. eapply Permutation_Forall; [apply ins_perm|]. constructor; [lia|exact F].
Qed.
Lemma sort_desc l : exists l', Permutation l l' /\ desc l'.
Proof.
  induction l as [|x l (l' & P & D)]; [exists []; split; constructor|]. exists (ins x l'). split; [|apply ins_desc, D].
  etransitivity; [constructor; exact P|apply ins_perm].
Qed.

(** Splitting a descending list at a multiple of its first weight: everything, or exactly that much. *)
Lemma split_desc : forall l c, desc l -> (forall x, In x l -> exists k, c = k * 2 ^ snd x) -> 
  exists a b, l = a ++ b /\ (wsum a = c \/ (b = [] /\ wsum a <= c)).
Proof.
  induction l as [|x l IH]; intros c D M; [exists [], []; split; [reflexivity|]; right; split; [reflexivity|cbn; lia]|].
  destruct (M x (or_introl eq_refl)) as (k & Ek). destruct k as [|k]; [exists [], (x :: l); split; [reflexivity|left; cbn; lia]|].
  inversion D as [|x' l' D' F]; subst x' l'. destruct (IH (k * 2 ^ snd x) D') as (a & b & -> & H).
  { intros y Hy. rewrite Forall_forall in F. specialize (F y Hy). exists (k * 2 ^ (snd x - snd y)). rewrite <- Nat.mul_assoc, <- Nat.pow_add_r. f_equal. f_equal. lia. }
  exists (x :: a), b. split; [reflexivity|]. rewrite wsum_cons. cbn in Ek. destruct H as [H|(H1 & H2)]; [left; lia|right; split; [exact H1|lia]].
Qed.

Lemma kraft_tree : forall L l, l <> [] -> wsum l <= 2 ^ L ->
  exists t, Permutation (bleaves t) (map fst l) /\
    forall f d, bcost f d t <= list_sum (map (fun x => f (fst x) * (d + (L - snd x))) l).
Proof.
  induction L as [|L IH]; intros l Hne HW.
  - destruct l as [|x [|y l]]; [congruence| |].
    + exists (BLeaf (fst x)). split; [reflexivity|]. intros f d. cbn. nia.
    + rewrite !wsum_cons in HW. pose proof (pow_pos (snd x)). pose proof (pow_pos (snd y)). cbn in HW. lia.
  - destruct l as [|x [|y l]]; [congruence| |].
    + exists (BLeaf (fst x)). split; [reflexivity|]. intros f d. cbn [map list_sum fold_right bcost]. nia.
    + set (l0 := x :: y :: l) in *.
      assert (HE : forall z, In z l0 -> snd z <= L).
      { intros z Hz. apply Nat.nlt_ge. intros Hlt. apply in_split in Hz. destruct Hz as (a & b & E). rewrite E, wsum_app, wsum_cons in HW.
        assert (2 ^ S L <= 2 ^ snd z) by (apply Nat.pow_le_mono_r; lia).
        assert (1 <= wsum a + wsum b); [|lia].
        assert (a ++ b <> []) as Hab.
        { intros Hn. apply app_eq_nil in Hn. destruct Hn as (-> & ->). discriminate E. }
        rewrite <- wsum_app. destruct (a ++ b) as [|w r]; [congruence|]. rewrite wsum_cons. pose proof (pow_pos (snd w)). lia. }
      destruct (sort_desc l0) as (l' & P & D).
      destruct (split_desc l' (2 ^ L) D) as (a & b & El & H).
      { intros z Hz. apply (Permutation_in _ (Permutation_sym P)) in Hz. specialize (HE z Hz). exists (2 ^ (L - snd z)). rewrite <- Nat.pow_add_r. f_equal. lia. }
      pose proof (wsum_perm _ _ P) as EW. rewrite El, wsum_app in EW.
      assert (Hcost : forall f d, list_sum (map (fun x => f (fst x) * (d + (S L - snd x))) l0) =
                list_sum (map (fun x => f (fst x) * (d + (S L - snd x))) a) + list_sum (map (fun x => f (fst x) * (d + (S L - snd x))) b)).
      { intros f d. rewrite <- list_sum_app, <- map_app, <- El. clear - P. unfold list_sum. induction P; cbn [map fold_right] in *; lia. }
      assert (HS : forall l1, incl l1 l0 -> forall f d, list_sum (map (fun x => f (fst x) * (S d + (L - snd x))) l1) = list_sum (map (fun x => f (fst x) * (d + (S L - snd x))) l1)).
      { intros l1 Hi f d. f_equal. apply map_ext_in. intros z Hz. specialize (HE z (Hi z Hz)). f_equal. lia. }
      assert (Ia : incl a l0) by (intros z Hz; apply (Permutation_in _ (Permutation_sym P)); rewrite El; apply in_or_app; auto).
      assert (Ib : incl b l0) by (intros z Hz; apply (Permutation_in _ (Permutation_sym P)); rewrite El; apply in_or_app; auto).
      assert (Pm : Permutation (map fst l0) (map fst a ++ map fst b)) by (rewrite <- map_app, <- El; apply Permutation_map, P).
      assert (HWa : wsum a <= 2 ^ L) by (destruct H as [H|(_ & H)]; lia).
      assert (HWb : wsum b <= 2 ^ L) by (cbn [Nat.pow] in HW; destruct H as [H|(-> & _)]; [lia|cbn; lia]).
      destruct a as [|za a'] eqn:Ea.
      { exfalso. cbn in H. pose proof (pow_pos L). destruct H as [H|(-> & _)]; [lia|]. apply Permutation_length in P. rewrite El in P. discriminate P. }
      rewrite <- Ea in *. assert (Na : a <> []) by (rewrite Ea; discriminate). destruct (IH a Na HWa) as (ta & Pa & Ca).
      destruct b as [|zb b'] eqn:Eb.
      * exists ta. split; [rewrite Pa, Pm; cbn; rewrite app_nil_r; reflexivity|]. intros f d. rewrite Hcost. cbn [map list_sum fold_right].
        specialize (Ca f d). pose proof (HS a Ia f d) as E1.
        enough (list_sum (map (fun x => f (fst x) * (d + (L - snd x))) a) <= list_sum (map (fun x => f (fst x) * (S d + (L - snd x))) a)) by lia.
        clear. induction a as [|z a IH]; [cbn; lia|]. cbn [map list_sum fold_right]. fold (list_sum (map (fun x => f (fst x) * (d + (L - snd x))) a)) (list_sum (map (fun x => f (fst x) * (S d + (L - snd x))) a)). unfold list_sum in *. nia.
      * rewrite <- Eb in *. assert (Nb : b <> []) by (rewrite Eb; discriminate). destruct (IH b Nb HWb) as (tb & Pb & Cb).
        exists (BNode ta tb). split; [cbn [bleaves]; rewrite Pa, Pb, Pm; reflexivity|].
        intros f d. rewrite Hcost. cbn [bcost]. specialize (Ca f (S d)). specialize (Cb f (S d)). rewrite HS in Ca by exact Ia. rewrite HS in Cb by exact Ib. lia.
Qed.
