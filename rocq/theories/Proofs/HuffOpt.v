(** * Optimality of the two-smallest merge, on weight lists *)
From Coq Require Import List Arith Lia Permutation Sorted.
From Verif.Spec Require Import Tree.
Import ListNotations.

(** Depth lists of binary trees. *)
Inductive realiz : list nat -> Prop :=
| rz0 : realiz [0]
| rz_split d D : realiz (d :: D) -> realiz (S d :: S d :: D)
| rz_perm D D' : Permutation D D' -> realiz D -> realiz D'.

Lemma realiz_max D : realiz D -> 2 <= length D ->
  exists m D', Permutation D (S m :: S m :: D') /\ realiz (m :: D') /\ (forall x, In x D -> x <= S m).
Proof.
  induction 1 as [|d D HR IH|D D' HP HR IH]; intros Hlen; simpl in Hlen; try lia.
  - destruct D as [|e D].
    + exists d, []. repeat split; auto.
      intros x [<-|[<-|[]]]; lia.
    + destruct IH as (m & D' & HP & HR' & Hmax); [simpl; lia|].
      destruct (le_lt_dec m d) as [Hle|Hlt].
      * (* S m <= S d *)
        exists d, (e :: D). repeat split; auto.
        intros x [<-|[<-|Hin]]; try lia.
        assert (x <= S m) by (apply Hmax; right; exact Hin). lia.
      * (* d < m: d is in D' *)
        assert (Hd : In d D').
        { assert (Hi : In d (S m :: S m :: D')) by (eapply Permutation_in; [exact HP|left; reflexivity]).
          destruct Hi as [E|[E|Hi]]; try lia; auto. }
        apply in_split in Hd. destruct Hd as (D1 & D2 & ->).
        assert (HPe : Permutation (e :: D) (S m :: S m :: D1 ++ D2)).
        { apply (Permutation_cons_inv (a := d)). etransitivity; [exact HP|].
          rewrite <- Permutation_middle. apply Permutation_sym.
          etransitivity; [apply perm_swap|]. apply perm_skip. apply perm_swap. }
        exists m, (S d :: S d :: D1 ++ D2). repeat split.
        -- etransitivity; [do 2 apply perm_skip; exact HPe|].
           change (Permutation ([S d; S d] ++ [S m; S m] ++ D1 ++ D2) ([S m; S m] ++ [S d; S d] ++ D1 ++ D2)).
           rewrite (app_assoc [S d; S d]), (app_assoc [S m; S m]). apply Permutation_app_tail, Permutation_app_comm.
        -- apply (rz_perm (S d :: S d :: m :: D1 ++ D2)).
           { change (Permutation ([S d; S d] ++ [m] ++ D1 ++ D2) ([m] ++ [S d; S d] ++ D1 ++ D2)).
             rewrite (app_assoc [S d; S d]), (app_assoc [m]). apply Permutation_app_tail, Permutation_app_comm. }
           apply rz_split. eapply rz_perm; [|exact HR'].
           rewrite <- Permutation_middle. apply perm_swap.
        -- intros x [<-|[<-|Hin]]; try lia. apply Hmax. right; exact Hin.
  - destruct IH as (m & D2 & HP2 & HR2 & Hmax).
    { rewrite (Permutation_length HP). lia. }
    exists m, D2. repeat split; auto.
    + etransitivity; [apply Permutation_sym; exact HP|exact HP2].
    + intros x Hin. apply Hmax. eapply Permutation_in; [apply Permutation_sym; exact HP|exact Hin].
Qed.

(** Cost of an assignment of weights to depths. *)
Definition pcost (P : list (nat * nat)) : nat := list_sum (map (fun p => fst p * snd p) P).

Lemma list_sum_perm l l' : Permutation l l' -> list_sum l = list_sum l'.
Proof. induction 1; simpl; lia. Qed.

Lemma pcost_perm P P' : Permutation P P' -> pcost P = pcost P'.
Proof. intros H. unfold pcost. apply list_sum_perm, Permutation_map, H. Qed.

(** Move a minimal weight [a] to a maximal depth [M] by one swap. *)
Lemma exchange P a M W D :
  Permutation (map fst P) (a :: W) -> Permutation (map snd P) (M :: D) ->
  (forall w, In w W -> a <= w) -> (forall d, In d D -> d <= M) ->
  exists P', Permutation (map fst P') W /\ Permutation (map snd P') D /\
             a * M + pcost P' <= pcost P.
Proof.
  intros HW HD Ha HM.
  assert (Hin : In a (map fst P)) by (eapply Permutation_in; [apply Permutation_sym; exact HW|left; auto]).
  apply in_map_iff in Hin. destruct Hin as ((a' & da) & E & Hin). simpl in E; subst a'.
  apply in_split in Hin. destruct Hin as (P1 & P2 & ->).
  assert (HPQ : Permutation (P1 ++ (a, da) :: P2) ((a, da) :: P1 ++ P2))
    by (apply Permutation_sym, Permutation_middle).
  set (Q := P1 ++ P2) in *.
  assert (HW' : Permutation (map fst Q) W).
  { apply (Permutation_cons_inv (a := a)). etransitivity; [|exact HW].
    apply Permutation_sym. apply (Permutation_map fst) in HPQ. exact HPQ. }
  assert (HD' : Permutation (da :: map snd Q) (M :: D)).
  { etransitivity; [|exact HD]. apply Permutation_sym. apply (Permutation_map snd) in HPQ. exact HPQ. }
  assert (HQ : pcost (P1 ++ (a, da) :: P2) = a * da + pcost Q)
    by (rewrite (pcost_perm _ _ HPQ); reflexivity).
  destruct (Nat.eq_dec da M) as [->|Hne].
  - exists Q. repeat split; auto.
    + eapply Permutation_cons_inv; exact HD'.
    + lia.
  - assert (Hx : In M (map snd Q)).
    { assert (Hi : In M (da :: map snd Q)) by (eapply Permutation_in; [apply Permutation_sym; exact HD'|left; auto]).
      destruct Hi; [congruence|auto]. }
    apply in_map_iff in Hx. destruct Hx as ((x & M') & E & Hx). simpl in E; subst M'.
    apply in_split in Hx. destruct Hx as (Q1 & Q2 & EQ). rewrite EQ in *.
    exists ((x, da) :: Q1 ++ Q2).
    assert (HQQ : Permutation (Q1 ++ (x, M) :: Q2) ((x, M) :: Q1 ++ Q2))
      by (apply Permutation_sym, Permutation_middle).
    repeat split.
    + etransitivity; [|exact HW']. apply Permutation_sym.
      apply (Permutation_map fst) in HQQ. exact HQQ.
    + apply (Permutation_cons_inv (a := M)). etransitivity; [|exact HD'].
      apply (Permutation_map snd) in HQQ. simpl in HQQ |- *.
      etransitivity; [apply perm_swap|]. apply perm_skip. apply Permutation_sym; exact HQQ.
    + rewrite HQ. rewrite (pcost_perm _ _ HQQ). unfold pcost; simpl.
      assert (a <= x). { apply Ha. eapply Permutation_in; [exact HW'|].
        apply in_map_iff. exists (x, M). split; auto. apply in_or_app; right; left; auto. }
      assert (da <= M). { assert (Hi : In da (M :: D)) by (eapply Permutation_in; [exact HD'|left; auto]).
        destruct Hi; [lia|auto]. }
      set (s := list_sum _). nia.
Qed.

Section Opt.
  (** One run of the merging algorithm on the list of weights. *)
  Variable ins : nat -> list nat -> list nat.
  Hypothesis ins_perm : forall x l, Permutation (ins x l) (x :: l).
  Hypothesis ins_sorted : forall x l, StronglySorted le l -> StronglySorted le (ins x l).

  Fixpoint hcost (fuel : nat) (W : list nat) : nat :=
    match fuel with
    | O => 0
    | S k => match W with
             | a :: b :: rest => a + b + hcost k (ins (a + b) rest)
             | _ => 0
             end
    end.

  Lemma hcost_opt : forall fuel W P,
    StronglySorted le W -> length W <= fuel ->
    Permutation (map fst P) W -> realiz (map snd P) ->
    hcost fuel W <= pcost P.
  Proof.
    induction fuel as [|k IH]; intros W P HS Hlen HP HR; [simpl; lia|].
    destruct W as [|a [|b rest]]; try (simpl; lia).
    destruct (realiz_max _ HR) as (m & D' & HD & HR' & Hmax).
    { rewrite map_length. rewrite <- (map_length fst), (Permutation_length HP). simpl; lia. }
    inversion HS as [|? ? HS1 HF1]; subst.
    inversion HS1 as [|? ? HS2 HF2]; subst.
    assert (Hmax' : forall x, In x (S m :: D') -> x <= S m).
    { intros x Hx. apply Hmax. eapply Permutation_in; [apply Permutation_sym; exact HD|]. right; exact Hx. }
    destruct (exchange P a (S m) (b :: rest) (S m :: D') HP HD) as (P1 & HW1 & HD1 & HC1).
    { apply Forall_forall; exact HF1. }
    { exact Hmax'. }
    destruct (exchange P1 b (S m) rest D' HW1 HD1) as (P2 & HW2 & HD2 & HC2).
    { apply Forall_forall; exact HF2. }
    { intros x Hx. apply Hmax'. right; auto. }
    assert (HI : hcost k (ins (a + b) rest) <= pcost ((a + b, m) :: P2)).
    { apply IH.
      - apply ins_sorted; auto.
      - rewrite (Permutation_length (ins_perm _ _)). simpl in *; lia.
      - simpl. etransitivity; [apply perm_skip; exact HW2|]. apply Permutation_sym, ins_perm.
      - simpl. eapply rz_perm; [apply perm_skip, Permutation_sym; exact HD2|exact HR']. }
    cbn [hcost]. unfold pcost in HI; simpl in HI. fold (pcost P2) in HI. lia.
  Qed.
End Opt.

(** Trees give realizable depth lists. *)
Fixpoint bdepths (d : nat) (t : btree) : list nat :=
  match t with
  | BLeaf _ => [d]
  | BNode l r => bdepths (S d) l ++ bdepths (S d) r
  end.

Lemma bdepths_realiz t : forall d D, realiz (d :: D) -> realiz (bdepths d t ++ D).
Proof.
  induction t as [i|l IHl r IHr]; intros d D H; simpl; auto.
  rewrite <- app_assoc. apply IHl.
  eapply rz_perm; [apply Permutation_sym, Permutation_cons_append|]. simpl.
  rewrite <- app_assoc. apply IHr.
  eapply rz_perm; [|apply rz_split; exact H]. apply perm_skip. apply Permutation_cons_append.
Qed.

Lemma bcost_pcost f t : forall d, bcost f d t = pcost (combine (map f (bleaves t)) (bdepths d t)).
Proof.
  assert (HL : forall t d, length (bleaves t) = length (bdepths d t)).
  { induction t0; intros d; simpl; auto. rewrite !app_length. rewrite (IHt0_1 (S d)), (IHt0_2 (S d)); auto. }
  induction t as [i|l IHl r IHr]; intros d; simpl.
  - unfold pcost; simpl; lia.
  - rewrite map_app.
    assert (HC : forall (A B A' B' : list nat), length A = length A' ->
      combine (A ++ B) (A' ++ B') = combine A A' ++ combine B B').
    { induction A; intros B A' B' HH; destruct A'; simpl in *; try discriminate; auto. f_equal; auto. }
    rewrite HC by (rewrite map_length; apply HL).
    unfold pcost. rewrite map_app, list_sum_app. rewrite IHl, IHr. reflexivity.
Qed.

Lemma combine_fst {A B} : forall (l : list A) (l' : list B), length l = length l' -> map fst (combine l l') = l.
Proof. induction l; destruct l'; simpl; intros; try discriminate; f_equal; auto. Qed.
Lemma combine_snd {A B} : forall (l : list A) (l' : list B), length l = length l' -> map snd (combine l l') = l'.
Proof. induction l; destruct l'; simpl; intros; try discriminate; f_equal; auto. Qed.

Lemma bleaves_bdepths_length t : forall d, length (bleaves t) = length (bdepths d t).
Proof.
  induction t as [i|l IHl r IHr]; intros d; simpl; auto.
  rewrite !app_length, (IHl (S d)), (IHr (S d)); auto.
Qed.

Lemma hcost_opt_tree ins
  (ins_perm : forall x l, Permutation (ins x l) (x :: l))
  (ins_sorted : forall x l, StronglySorted le l -> StronglySorted le (ins x l)) f W t :
  StronglySorted le W -> Permutation (map f (bleaves t)) W ->
  hcost ins (length W) W <= bcost f 0 t.
Proof.
  intros HS HP. rewrite bcost_pcost.
  apply hcost_opt; auto.
  - rewrite combine_fst; auto. rewrite map_length. apply bleaves_bdepths_length.
  - rewrite combine_snd by (rewrite map_length; apply bleaves_bdepths_length).
    rewrite <- (app_nil_r (bdepths 0 t)). apply bdepths_realiz. constructor.
Qed.
