From Coq Require Import Lia Reals Lra Sorting.Permutation Sorting.Sorted.
From Verif.Lib Require Import Go F64 F64Facts ListFacts Tac.
From Verif.Spec Require Import Search.
From Verif.Model Require Import Embedding Search.
Local Open Scope Z_scope.

(** ** Order of float64 *)
Lemma fle_trans x y z : fle x y = true -> fle y z = true -> fle x z = true.
Proof. rewrite !fle_spec. intros (A & B & C) (D & E & F). repeat split; auto. lra. Qed.
Lemma fgt_fle x y : fgt x y = true -> fle y x = true.
Proof. rewrite fgt_spec, fle_spec. intros (A & B & C). repeat split; auto. lra. Qed.
Lemma not_fgt_fle x y : isnan x = false -> isnan y = false -> fgt x y = false -> fle x y = true.
Proof.
  intros Hx Hy H. apply fle_spec. repeat split; auto. destruct (Rle_or_lt (fkey x) (fkey y)); auto.
  assert (fgt x y = true) by (apply fgt_spec; auto). congruence.
Qed.
Lemma fle_refl x : isnan x = false -> fle x x = true.
Proof. intros H. apply fle_spec. repeat split; auto. lra. Qed.
Lemma fle_nan_l x y : fle x y = true -> isnan x = false. Proof. rewrite fle_spec. tauto. Qed.
Lemma fle_nan_r x y : fle x y = true -> isnan y = false. Proof. rewrite fle_spec. tauto. Qed.
Lemma fgt_fle_false x y : fgt x y = true -> fle x y = false.
Proof. intros H. destruct (fle x y) eqn:E; auto. rewrite fgt_spec in H. rewrite fle_spec in E. destruct H as (_ & _ & H), E as (_ & _ & E). lra. Qed.
Lemma fgt_trans_le x y z : fgt x y = true -> fle z y = true -> fgt x z = true.
Proof. rewrite !fgt_spec, fle_spec. intros (A & B & C) (D & E & F). repeat split; auto. lra. Qed.

Lemma gseqb_true x y : gseqb x y = true -> x = y.
Proof. destruct (gseqb_spec x y); congruence. Qed.

Definition pr (n : neighbor) : gostring * f64 := (n_word n, n_sim n).
Definition ge (a b : gostring * f64) : Prop := fle (snd b) (snd a) = true.
Definition blank : gostring * f64 := ([], fzero).

(** ** One insertion *)
Lemma bubble_length : forall ns i t, length (bubble i t ns) = length ns.
Proof. induction ns as [|n ns IH]; intros i t; cbn [bubble]; [reflexivity|]. destruct (fgt _ _); cbn; rewrite IH; reflexivity. Qed.

Lemma bubble_spec : forall ns i t, isnan (n_sim t) = false -> Forall (fun n => isnan (n_sim n) = false) ns ->
  StronglySorted ge (map pr ns) ->
  exists d, Permutation (map pr (bubble i t ns) ++ [d]) (pr t :: map pr ns) /\
            StronglySorted ge (map pr (bubble i t ns) ++ [d]).
Proof.
  induction ns as [|n ns IH]; intros i t Ht Hn S; cbn [bubble map].
  - exists (pr t). split; [reflexivity|]. constructor; constructor.
  - cbn [map] in S. inversion S as [|? ? S' F]; subst. inversion Hn as [|? ? Hn1 Hn2]; subst.
    destruct (fgt (n_sim t) (n_sim n)) eqn:E; cbn [map].
    + destruct (IH (i + 1) n Hn1 Hn2 S') as (d & P & Sd). exists d. split.
      * cbn [app]. constructor. exact P.
      * cbn [app]. constructor; [exact Sd|]. apply Forall_forall. intros x Hx. apply (Permutation_in _ P) in Hx.
        unfold ge. cbn [snd pr]. destruct Hx as [<-|Hx]; [apply fgt_fle; auto|]. rewrite Forall_forall in F.
        apply (fle_trans _ (n_sim n)); [apply (F _ Hx)|apply fgt_fle; auto].
    + destruct (IH (i + 1) t Ht Hn2 S') as (d & P & Sd). exists d. split.
      * cbn [app]. eapply Permutation_trans; [apply perm_skip; exact P|]. apply perm_swap.
      * cbn [app]. constructor; [exact Sd|]. apply Forall_forall. intros x Hx. apply (Permutation_in _ P) in Hx.
        destruct Hx as [<-|Hx]; [apply not_fgt_fle; auto|]. rewrite Forall_forall in F. apply (F _ Hx).
Qed.

Definition ranks (i : Z) (ns : list neighbor) : Prop :=
  forall j n, nth_error ns j = Some n -> n_rank n = if fgt (n_sim n) fzero then i + Z.of_nat j + 1 else 0.

Lemma bubble_ranks : forall ns i t, Forall (fun n => fle fzero (n_sim n) = true) ns -> ranks i ns -> ranks i (bubble i t ns).
Proof.
  induction ns as [|n ns IH]; intros i t H R; cbn [bubble]; [exact R|]. inversion H as [|? ? H1 H2]; subst.
  assert (R' : ranks (i + 1) ns). { intros j m E. specialize (R (S j) m E). rewrite R. destruct (fgt _ fzero); lia. }
  destruct (fgt (n_sim t) (n_sim n)) eqn:E; intros [|j] m Em; cbn [nth_error] in Em.
  - injection Em as <-. cbn [n_rank n_sim]. rewrite (fgt_trans_le _ (n_sim n) fzero E H1). cbn. lia.
  - rewrite (IH (i + 1) n H2 R' j m Em). destruct (fgt _ fzero); lia.
  - injection Em as <-. apply (R 0%nat n). reflexivity.
  - rewrite (IH (i + 1) t H2 R' j m Em). destruct (fgt _ fzero); lia.
Qed.

(** ** The loop *)
Definition loop_inv (K : nat) (cs : list (gostring * f64)) (ns : list neighbor) (low : f64) : Prop :=
  length ns = K /\ ranks 0 ns /\ StronglySorted ge (map pr ns) /\
  low = n_sim (last ns nb_zero) /\
  exists rest, Permutation (map pr ns ++ rest) (cs ++ repeat blank K) /\
    forall a b, In a rest -> In b (map pr ns) -> fle (snd a) (snd b) = true.

Lemma repeat_in {A} (x y : A) n : In y (repeat x n) -> y = x.
Proof. apply repeat_spec. Qed.

Lemma inv_nonneg K cs ns low : loop_inv K cs ns low -> Forall (fun c => fgt (snd c) fzero = true) cs ->
  Forall (fun n => fle fzero (n_sim n) = true) ns.
Proof.
  intros (_ & _ & _ & _ & rest & P & _) HC. apply Forall_forall. intros n Hn.
  assert (In (pr n) (cs ++ repeat blank K)) as Hi.
  { apply (Permutation_in _ P). apply in_or_app. left. apply in_map. auto. }
  apply in_app_or in Hi. destruct Hi as [Hi|Hi].
  - rewrite Forall_forall in HC. apply fgt_fle. apply (HC _ Hi).
  - apply repeat_spec in Hi. unfold pr, blank in Hi. injection Hi as _ ->. reflexivity.
Qed.

Lemma last_in {A} (l : list A) d : l <> [] -> In (last l d) l.
Proof. intros H. destruct (exists_last H) as (l' & x & ->). rewrite last_last. apply in_or_app. right. left. reflexivity. Qed.

Lemma sorted_last (ns : list neighbor) : StronglySorted ge (map pr ns) -> Forall (fun n => isnan (n_sim n) = false) ns -> ns <> [] ->
  forall n, In n ns -> fle (n_sim (last ns nb_zero)) (n_sim n) = true.
Proof.
  induction ns as [|m ns IH]; intros S F N n Hn; [congruence|]. cbn [map] in S. inversion S as [|? ? S' G]; subst. inversion F; subst.
  destruct ns as [|m' ns].
  - destruct Hn as [<-|[]]. apply fle_refl; auto.
  - change (last (m :: m' :: ns) nb_zero) with (last (m' :: ns) nb_zero). destruct Hn as [<-|Hn].
    + rewrite Forall_forall in G. apply (G (pr (last (m' :: ns) nb_zero))). apply in_map. apply last_in. discriminate.
    + apply IH; auto. discriminate.
Qed.

Lemma sorted_app_inv {A} (R : A -> A -> Prop) (l1 l2 : list A) : StronglySorted R (l1 ++ l2) ->
  StronglySorted R l1 /\ StronglySorted R l2 /\ forall a b, In a l1 -> In b l2 -> R a b.
Proof.
  induction l1 as [|x l1 IH]; cbn [app]; intros S.
  - split; [constructor|]. split; [auto|]. intros ? ? [].
  - inversion S as [|? ? S' F]; subst. destruct (IH S') as (A1 & A2 & A3). rewrite Forall_forall in F. split.
    + constructor; auto. apply Forall_forall. intros y Hy. apply F. apply in_or_app. auto.
    + split; auto. intros a b [<-|Ha] Hb; auto. apply F. apply in_or_app. auto.
Qed.

Lemma loop_step_in K cs ns low w x : (1 <= K)%nat -> loop_inv K cs ns low -> Forall (fun c => fgt (snd c) fzero = true) cs ->
  fgt x low = true -> let ns' := bubble 0 (Nb w 0 x) ns in
  ns' <> [] /\ loop_inv K (cs ++ [(w, x)]) ns' (n_sim (last ns' nb_zero)).
Proof.
  intros HK I HC Hx ns'. pose proof (inv_nonneg _ _ _ _ I HC) as NN. destruct I as (L & R & S & El & rest & P & B).
  assert (L' : length ns' = K) by (unfold ns'; rewrite bubble_length; auto).
  split; [destruct ns'; [cbn in L'; lia|discriminate]|].
  assert (Hxn : isnan x = false) by (apply fgt_spec in Hx; tauto).
  assert (NNn : Forall (fun n => isnan (n_sim n) = false) ns) by (eapply Forall_impl; [|exact NN]; cbn; intros a Ha; eapply fle_nan_r; eauto).
  destruct (bubble_spec ns 0 (Nb w 0 x) Hxn NNn S) as (d & Pd & Sd). fold ns' in Pd, Sd.
  destruct (sorted_app_inv _ _ _ Sd) as (Sd1 & _ & Sd2).
  split; [auto|]. split; [apply bubble_ranks; auto|]. split; [auto|]. split; [reflexivity|].
  exists (d :: rest). split.
  - change (d :: rest) with ([d] ++ rest). rewrite app_assoc. eapply Permutation_trans; [apply Permutation_app_tail; exact Pd|].
    cbn [app]. eapply Permutation_trans; [apply perm_skip; exact P|]. change (pr (Nb w 0 x)) with (w, x). rewrite <- app_assoc. cbn [app].
    apply Permutation_middle.
  - intros a b [<-|Ha] Hb.
    + apply (Sd2 b d Hb). left. reflexivity.
    + assert (Hb' : In b (pr (Nb w 0 x) :: map pr ns)) by (apply (Permutation_in _ Pd), in_or_app; auto).
      assert (N0 : ns <> []) by (intros ->; cbn in L; lia).
      assert (Hlow : fle (snd a) low = true). { rewrite El. apply (B a (pr (last ns nb_zero)) Ha). apply in_map. apply last_in. auto. }
      destruct Hb' as [<-|Hb']; [|apply (B a b Ha Hb')]. cbn [snd pr n_sim]. apply (fle_trans _ low); auto. apply fgt_fle. auto.
Qed.

Lemma loop_step_out K cs ns low w x : (1 <= K)%nat -> loop_inv K cs ns low -> Forall (fun c => fgt (snd c) fzero = true) cs ->
  fgt x fzero = true -> fgt x low = false -> loop_inv K (cs ++ [(w, x)]) ns low.
Proof.
  intros HK I HC Hp Hx. pose proof (inv_nonneg _ _ _ _ I HC) as NN. destruct I as (L & R & S & El & rest & P & B).
  assert (NNn : Forall (fun n => isnan (n_sim n) = false) ns) by (eapply Forall_impl; [|exact NN]; cbn; intros a Ha; eapply fle_nan_r; eauto).
  assert (N0 : ns <> []) by (intros ->; cbn in L; lia).
  assert (Hl : isnan low = false) by (rewrite El; rewrite Forall_forall in NNn; apply NNn, last_in; auto).
  assert (Hxl : fle x low = true) by (apply not_fgt_fle; auto; apply fgt_spec in Hp; tauto).
  repeat (split; [auto|]). exists ((w, x) :: rest). split.
  - eapply Permutation_trans; [apply Permutation_sym, Permutation_middle|]. rewrite <- app_assoc. cbn [app].
    eapply Permutation_trans; [|apply Permutation_middle]. apply perm_skip. auto.
  - intros a b [<-|Ha] Hb; [|apply (B a b Ha Hb)]. cbn [snd]. apply (fle_trans _ low); auto. rewrite El.
    apply in_map_iff in Hb. destruct Hb as (n & <- & Hn). apply sorted_last; auto.
Qed.

Lemma low_nonneg K cs ns low : (1 <= K)%nat -> loop_inv K cs ns low -> Forall (fun c => fgt (snd c) fzero = true) cs -> fle fzero low = true.
Proof.
  intros HK I HC. pose proof (inv_nonneg _ _ _ _ I HC) as NN. destruct I as (L & R & S & El & _).
  rewrite Forall_forall in NN. rewrite El. apply NN, last_in. intros ->. cbn in L. lia.
Qed.

Definition is_cand (q : embedding) (ign : list gostring) (it : embedding) : bool :=
  (if in_dec gostring_eq_dec (e_word it) ign then false else true) && fgt (similarity q it) fzero.
Lemma candidates_cons it items q ign :
  candidates (it :: items) q ign = (if is_cand q ign it then [(e_word it, similarity q it)] else []) ++ candidates items q ign.
Proof. unfold candidates, is_cand. cbn [filter]. destruct (_ && _); reflexivity. Qed.
Lemma candidates_app a b q ign : candidates (a ++ b) q ign = candidates a q ign ++ candidates b q ign.
Proof. induction a as [|it a IH]; [reflexivity|]. cbn [app]. rewrite !candidates_cons, IH, app_assoc. reflexivity. Qed.
Lemma candidates_pos items q ign : Forall (fun c => fgt (snd c) fzero = true) (candidates items q ign).
Proof.
  apply Forall_forall. intros c Hc. unfold candidates in Hc. apply in_map_iff in Hc. destruct Hc as (it & <- & Hi).
  apply filter_In in Hi. destruct Hi as [_ Hi]. apply andb_prop in Hi. cbn. tauto.
Qed.

Lemma cos_dot_spec : forall v1 v2 d, (length v1 <= length v2)%nat ->
  cos_dot v1 v2 d = Ret (fold_left (fun d p => fadd d (fmul (fst p) (snd p))) (combine v1 v2) d).
Proof.
  induction v1 as [|a v1 IH]; intros v2 d H; [reflexivity|]. destruct v2 as [|b v2]; [cbn in H; lia|]. cbn [cos_dot combine fold_left fst snd].
  apply IH. cbn in H. lia.
Qed.
Lemma cos_dot_panic : forall v1 v2 d, (length v2 < length v1)%nat -> cos_dot v1 v2 d = Panic.
Proof. induction v1 as [|a v1 IH]; intros [|b v2] d H; cbn in *; try lia; auto. apply IH. lia. Qed.

Lemma cosine_similarity q it : comparable q it ->
  cosine (e_vec q) (e_vec it) (e_norm q) (e_norm it) = Ret (similarity q it).
Proof.
  unfold cosine, similarity, comparable. intros H. destruct (feq (e_norm q) fzero); [reflexivity|]. destruct (feq (e_norm it) fzero); [reflexivity|].
  cbn [orb]. rewrite cos_dot_spec; [reflexivity|]. destruct H as [H|[H|H]]; [discriminate|discriminate|exact H].
Qed.
Lemma cosine_panic q it : ~ comparable q it -> cosine (e_vec q) (e_vec it) (e_norm q) (e_norm it) = Panic.
Proof.
  unfold cosine, comparable. intros H. destruct (feq (e_norm q) fzero); [tauto|]. destruct (feq (e_norm it) fzero); [tauto|].
  cbn [orb]. rewrite cos_dot_panic; [reflexivity|]. destruct (Nat.lt_ge_cases (length (e_vec it)) (length (e_vec q))); [auto|]. exfalso. apply H. right. right. exact H0.
Qed.
Lemma comparable_dec q it : comparable q it \/ ~ comparable q it.
Proof.
  unfold comparable. destruct (feq (e_norm q) fzero); [auto|]. destruct (feq (e_norm it) fzero); [auto|].
  destruct (Nat.le_gt_cases (length (e_vec q)) (length (e_vec it))); [auto|]. right. intros [?|[?|?]]; try discriminate. lia.
Qed.

Lemma ignored_in ign w : ignored ign w = true <-> In w ign.
Proof. unfold ignored. destruct (in_dec _ _ _); split; auto; discriminate. Qed.

Lemma search_items_spec q ign K : (1 <= K)%nat -> forall items done ns low,
  Forall (fun it => In (e_word it) ign \/ comparable q it) items ->
  loop_inv K (candidates done q ign) ns low ->
  exists ns' low', search_items q ign items ns low = Ret ns' /\ loop_inv K (candidates (done ++ items) q ign) ns' low'.
Proof.
  intros HK. induction items as [|it items IH]; intros done ns low C I; cbn [search_items].
  - exists ns, low. rewrite app_nil_r. auto.
  - inversion C as [|? ? C1 C2]; subst. replace (done ++ it :: items) with ((done ++ [it]) ++ items) by (rewrite <- app_assoc; reflexivity).
    pose proof (candidates_pos done q ign) as CP.
    assert (Ec : candidates (done ++ [it]) q ign = candidates done q ign ++ (if is_cand q ign it then [(e_word it, similarity q it)] else [])).
    { rewrite candidates_app, candidates_cons, app_nil_r. reflexivity. }
    destruct (ignored ign (e_word it)) eqn:Ig.
    + apply IH; auto. rewrite Ec. unfold is_cand. apply ignored_in in Ig. destruct (in_dec _ _ _); [|tauto]. cbn [andb]. rewrite app_nil_r. auto.
    + assert (Ni : ~ In (e_word it) ign) by (intros Hi; apply ignored_in in Hi; congruence).
      destruct C1 as [C1|C1]; [tauto|]. rewrite cosine_similarity by auto. cbn [obind].
      destruct (fgt (similarity q it) low) eqn:E.
      * assert (Hc : is_cand q ign it = true).
        { unfold is_cand. destruct (in_dec _ _ _); [tauto|]. cbn [andb]. apply (fgt_trans_le _ low); auto. eapply low_nonneg; eauto. }
        destruct (loop_step_in K _ ns low (e_word it) (similarity q it) HK I CP E) as [N I'].
        set (ns' := bubble 0 (Nb (e_word it) 0 (similarity q it)) ns) in *. cbv zeta. destruct ns' as [|n0 ns0]; [congruence|].
        apply IH; auto. rewrite Ec, Hc. exact I'.
      * apply IH; auto. rewrite Ec. unfold is_cand. destruct (in_dec _ _ _); [tauto|]. cbn [andb].
        destruct (fgt (similarity q it) fzero) eqn:Z; [|rewrite app_nil_r; auto]. apply loop_step_out; auto.
Qed.

Lemma search_items_panic q ign : forall items ns low,
  ~ Forall (fun it => In (e_word it) ign \/ comparable q it) items -> search_items q ign items ns low = Panic.
Proof.
  induction items as [|it items IH]; intros ns low H; [exfalso; apply H; constructor|]. cbn [search_items].
  destruct (ignored ign (e_word it)) eqn:Ig.
  - apply IH. intros F. apply H. constructor; auto. left. apply ignored_in. auto.
  - destruct (comparable_dec q it) as [C|C].
    + rewrite cosine_similarity by auto. cbn [obind]. assert (~ Forall (fun it => In (e_word it) ign \/ comparable q it) items) by (intros F; apply H; constructor; auto).
      destruct (fgt _ low); [|apply IH; auto]. cbv zeta. destruct (bubble 0 _ ns); [reflexivity|apply IH; auto].
    + rewrite cosine_panic by auto. reflexivity.
Qed.

Lemma init_inv K q ign : (1 <= K)%nat -> loop_inv K (candidates [] q ign) (repeat nb_zero K) fzero.
Proof.
  intros HK. split; [apply repeat_length|]. split.
  - intros j n E. apply nth_error_In in E. apply repeat_spec in E. subst. reflexivity.
  - split; [|split].
    + clear. induction K as [|K IH]; cbn [repeat map]; constructor; auto. apply Forall_forall. intros x Hx. apply in_map_iff in Hx. destruct Hx as (n & <- & Hn).
      apply repeat_spec in Hn. subst. reflexivity.
    + assert (In (last (repeat nb_zero K) nb_zero) (repeat nb_zero K)) as H by (apply last_in; destruct K; [lia|discriminate]).
      apply repeat_spec in H. rewrite H. reflexivity.
    + exists []. split; [|intros ? ? []]. rewrite app_nil_r. cbn. clear. induction K; cbn; constructor; auto.
Qed.

(** ** The end of the loop: the chosen candidates, then blanks *)
Lemma nonpos_filter (l : list (gostring * f64)) : Forall (fun c => fgt (snd c) fzero = true \/ c = blank) l -> StronglySorted ge l ->
  exists sel j, l = sel ++ repeat blank j /\ Forall (fun c => fgt (snd c) fzero = true) sel.
Proof.
  induction l as [|c l IH]; intros F So; [exists [], 0%nat; auto|]. inversion F as [|? ? F1 F2]; subst. inversion So as [|? ? S' G]; subst.
  destruct (IH F2 S') as (sel & j & -> & Fs). destruct F1 as [F1|F1].
  - exists (c :: sel), j. split; [reflexivity|constructor; auto].
  - subst c. destruct sel as [|s sel]; [exists [], (S j); auto|]. exfalso. inversion Fs as [|? ? Hs _]; subst.
    rewrite Forall_forall in G. assert (ge blank s) as Hg by (apply G; left; reflexivity). unfold ge in Hg. cbn in Hg. rewrite (fgt_fle_false _ _ Hs) in Hg. discriminate.
Qed.

Lemma inv_final K cs ns low : (1 <= K)%nat -> Forall (fun c => fgt (snd c) fzero = true) cs -> loop_inv K cs ns low ->
  exists sel, best K cs sel /\ ns = ranked sel ++ repeat nb_zero (K - length sel) /\ Forall (fun c => In c cs) sel.
Proof.
  intros HK HC (L & R & So & El & rest & P & B).
  assert (F0 : forall c, In c (map pr ns ++ rest) -> fgt (snd c) fzero = true \/ c = blank).
  { intros c Hc. apply (Permutation_in _ P) in Hc. apply in_app_or in Hc. destruct Hc as [Hc|Hc]; [left; rewrite Forall_forall in HC; auto|right; eapply repeat_spec; eauto]. }
  destruct (nonpos_filter (map pr ns)) as (sel & j & E & Fs); [apply Forall_forall; intros c Hc; apply F0, in_or_app; auto|auto|].
  assert (Len : (length sel + j = K)%nat) by (rewrite <- L, <- (map_length pr), E, app_length, repeat_length; lia).
  assert (Hb : fgt (snd blank) fzero = false) by reflexivity.
  (* split the left-overs into candidates and blanks *)
  set (isC := fun c : gostring * f64 => fgt (snd c) fzero).
  assert (FP : forall l1 l2, Permutation l1 l2 -> Permutation (filter isC l1) (filter isC l2)).
  { clear. induction 1; cbn [filter]; auto; try (destruct (isC x); auto); try (destruct (isC y)); try apply perm_swap; auto.
    eapply Permutation_trans; eauto. }
  assert (Ft : forall l, Forall (fun c => fgt (snd c) fzero = true) l -> filter isC l = l).
  { clear. induction 1 as [|x l Hx Hl IH]; cbn [filter]; auto. unfold isC at 1. rewrite Hx, IH. reflexivity. }
  assert (Fb : forall n, filter isC (repeat blank n) = []) by (clear; induction n; cbn; auto).
  pose proof (FP _ _ P) as PF. rewrite E, !filter_app, !Fb, (Ft sel Fs), (Ft cs HC), !app_nil_r in PF.
  assert (Hj : (0 < j)%nat -> filter isC rest = []).
  { intros Hj. destruct (filter isC rest) as [|c l] eqn:Ef; [auto|]. exfalso.
    assert (In c (filter isC rest)) as Hc by (rewrite Ef; left; reflexivity). apply filter_In in Hc. destruct Hc as [Hc1 Hc2].
    assert (fle (snd c) (snd blank) = true).
    { apply B; auto. rewrite E. apply in_or_app. right. destruct j; [lia|]. left. reflexivity. }
    change (fle (snd c) fzero = true) in H. unfold isC in Hc2. rewrite (fgt_fle_false _ _ Hc2) in H. discriminate. }
  exists sel. split; [|split].
  - exists (filter isC rest). split; [exact PF|]. split; [|split].
    + rewrite E in So. apply sorted_app_inv in So. exact (proj1 So).
    + intros a b Ha Hb'. apply filter_In in Ha. apply B; [tauto|]. rewrite E. apply in_or_app. auto.
    + apply Permutation_length in PF. rewrite app_length in PF. destruct j as [|j].
      * lia.
      * rewrite Hj in PF by lia. cbn in PF. lia.
  - (* rows *)
    clear - E R Len Fs. unfold ranked.
    assert (G : forall sel ns i j, map pr ns = sel ++ repeat blank j -> Forall (fun c => fgt (snd c) fzero = true) sel ->
       ranks (Z.of_nat i) ns -> ns = map (fun p => Nb (fst (snd p)) (Z.of_nat (fst p) + 1) (snd (snd p))) (combine (seq i (length sel)) sel) ++ repeat nb_zero j).
    { clear. induction sel as [|c sel IH]; intros ns i j E F R.
      - cbn [app length seq combine map] in *. revert i ns E R. induction j as [|j IHj]; intros i ns E R; destruct ns as [|[w r x] ns]; cbn [repeat map] in *; try discriminate; [reflexivity|].
        injection E as E1 E2 E3. unfold pr in *. cbn in *. subst.
        pose proof (R 0%nat _ eq_refl) as R0. cbn in R0. subst r. f_equal. apply (IHj (S i)); auto.
        intros k n En. rewrite (R (S k) n En). destruct (fgt _ fzero); lia.
      - destruct ns as [|[w r x] ns]; [discriminate|]. cbn [map app] in E. injection E as E1 E2. inversion F as [|? ? F1 F2]; subst.
        cbn [length seq combine map app fst snd pr n_word n_sim]. pose proof (R 0%nat _ eq_refl) as R0. cbn [n_rank n_sim] in R0.
        cbn [pr snd n_sim] in F1. rewrite F1 in R0. f_equal.
        + f_equal. lia.
        + apply IH; auto. intros k n En. rewrite (R (S k) n En). destruct (fgt (n_sim n) fzero); lia. }
    replace (K - length sel)%nat with j by lia. apply (G sel ns 0%nat j); auto.
  - apply Forall_forall. intros c Hc. apply (Permutation_in _ PF). apply in_or_app. auto.
Qed.

(** ** The guard *)
Lemma guard_blanks : forall j i k, guard (repeat nb_zero (S j)) i k = i + Z.of_nat j.
Proof.
  induction j as [|j IH]; intros i k; [cbn; lia|]. change (repeat nb_zero (S (S j))) with (nb_zero :: repeat nb_zero (S j)).
  cbn [guard]. rewrite IH. lia.
Qed.
Lemma guard_words : forall ns ms i k, Forall (fun n => n_word n <> []) ns -> guard (ns ++ ms) i k = guard ms (i + Z.of_nat (length ns)) k.
Proof.
  induction ns as [|n ns IH]; intros ms i k F; cbn [app length]; [f_equal; lia|]. inversion F as [|? ? F1 F2]; subst. cbn [guard].
  destruct (gseqb (n_word n) []) eqn:E; [apply gseqb_true in E; congruence|]. rewrite IH by auto. f_equal. lia.
Qed.
Lemma ranked_length sel : length (ranked sel) = length sel.
Proof. unfold ranked. rewrite map_length, combine_length, seq_length. lia. Qed.
Lemma ranked_in sel n : In n (ranked sel) -> In (n_word n, n_sim n) sel.
Proof.
  unfold ranked. intros H. apply in_map_iff in H. destruct H as ([i [w x]] & <- & H). cbn. apply (in_combine_r _ _ _ _ H).
Qed.

Lemma search_ok items q k ign : 1 <= k ->
  Forall (fun it => In (e_word it) ign \/ comparable q it) items ->
  Forall (fun c => fst c <> []) (candidates items q ign) ->
  exists sel, best (Z.to_nat k) (candidates items q ign) sel /\
    search items q k ign = Ret (ranked sel ++ repeat nb_zero (Z.to_nat k - length sel - 1)).
Proof.
  intros Hk C W. assert (HK : (1 <= Z.to_nat k)%nat) by lia.
  destruct (search_items_spec q ign (Z.to_nat k) HK items [] _ _ C (init_inv _ q ign HK)) as (ns & low & E & I).
  cbn [app] in I. destruct (inv_final _ _ _ _ HK (candidates_pos items q ign) I) as (sel & Bs & En & Fs).
  exists sel. split; [auto|]. unfold search. destruct (Z.ltb_spec k 0); [lia|]. rewrite E. cbn [obind]. f_equal.
  assert (Ls : (length sel <= Z.to_nat k)%nat) by (destruct Bs as (? & _ & _ & _ & ->); lia).
  rewrite En. rewrite guard_words.
  2:{ apply Forall_forall. intros n Hn. apply ranked_in in Hn. rewrite Forall_forall in Fs, W. apply (W _ (Fs _ Hn)). }
  rewrite ranked_length. remember (Z.to_nat k - length sel)%nat as j eqn:Ej. destruct j as [|j].
  - cbn [repeat guard Nat.sub]. rewrite firstn_all2; [reflexivity|]. rewrite app_nil_r, ranked_length. lia.
  - rewrite guard_blanks. replace (Z.to_nat (0 + Z.of_nat (length sel) + Z.of_nat j)) with (length (ranked sel) + j)%nat by (rewrite ranked_length; lia).
    rewrite firstn_app_2. f_equal. replace (S j - 1)%nat with j by lia. clear. induction j as [|j IH]; [reflexivity|]. cbn [repeat firstn] in *. f_equal. exact IH.
Qed.

Lemma search_bad items q k ign : ~ Forall (fun it => In (e_word it) ign \/ comparable q it) items -> search items q k ign = Panic.
Proof. intros H. unfold search. destruct (k <? 0); [reflexivity|]. rewrite search_items_panic; auto. Qed.
Lemma search_neg items q k ign : k < 0 -> search items q k ign = Panic.
Proof. intros H. unfold search. destruct (Z.ltb_spec k 0); [reflexivity|lia]. Qed.

Lemma search_items_zero q ign : forall items, Forall (fun it => In (e_word it) ign \/ comparable q it) items ->
  search_items q ign items [] fzero = match candidates items q ign with [] => Ret [] | _ => Panic end.
Proof.
  induction items as [|it items IH]; intros C; [reflexivity|]. inversion C as [|? ? C1 C2]; subst. cbn [search_items]. rewrite candidates_cons.
  unfold is_cand. destruct (ignored ign (e_word it)) eqn:Ig.
  - apply ignored_in in Ig. destruct (in_dec _ _ _); [|tauto]. cbn [andb app]. auto.
  - assert (Ni : ~ In (e_word it) ign) by (intros Hi; apply ignored_in in Hi; congruence).
    destruct C1 as [C1|C1]; [tauto|]. destruct (in_dec _ _ _); [tauto|]. rewrite cosine_similarity by auto. cbn [obind andb bubble].
    destruct (fgt (similarity q it) fzero) eqn:E; cbn [app]; auto.
Qed.
Lemma search_zero items q ign : Forall (fun it => In (e_word it) ign \/ comparable q it) items ->
  search items q 0 ign = match candidates items q ign with [] => Ret [] | _ => Panic end.
Proof.
  intros C. unfold search. cbn [Z.ltb Z.compare Z.to_nat repeat]. rewrite search_items_zero by auto. destruct (candidates items q ign); reflexivity.
Qed.

(** ** SearchInternal *)
Lemma first_item_none items w : ~ In w (map e_word items) -> first_item items w = emb_zero.
Proof.
  induction items as [|it items IH]; intros H; [reflexivity|]. cbn [first_item map] in *.
  destruct (gseqb (e_word it) w) eqn:E; [apply gseqb_true in E; exfalso; apply H; left; auto|]. apply IH. intros Hi. apply H. right. auto.
Qed.
Lemma first_item_some pre it post w : e_word it = w -> ~ In w (map e_word pre) -> first_item (pre ++ it :: post) w = it.
Proof.
  induction pre as [|p pre IH]; intros E H; cbn [app first_item map] in *.
  - subst w. rewrite gseqb_refl. reflexivity.
  - destruct (gseqb (e_word p) w) eqn:Ep; [apply gseqb_true in Ep; exfalso; apply H; left; auto|]. apply IH; auto. intros Hi. apply H. right. exact Hi.
Qed.
Lemma first_item_split items w : In w (map e_word items) -> exists pre it post, items = pre ++ it :: post /\ e_word it = w /\ ~ In w (map e_word pre).
Proof.
  induction items as [|it items IH]; intros H; [destruct H|]. cbn [map] in H.
  destruct (gostring_eq_dec (e_word it) w) as [E|E]; [exists [], it, items; auto|].
  destruct H as [H|H]; [contradiction|]. destruct (IH H) as (pre & x & post & -> & Ex & Np). exists (it :: pre), x, post. split; [reflexivity|]. split; auto.
  cbn. intros [?|?]; auto.
Qed.
Lemma search_internal_err items w k : w = [] \/ ~ In w (map e_word items) -> exists m, search_internal items w k = Err m.
Proof.
  intros H. unfold search_internal. destruct (in_dec gostring_eq_dec w (map e_word items)) as [Hi|Hi].
  - destruct H as [->|H]; [|contradiction]. destruct (first_item_split _ _ Hi) as (pre & it & post & -> & Ew & Np). rewrite first_item_some by auto. rewrite Ew. cbn. eauto.
  - rewrite first_item_none by auto. cbn. eauto.
Qed.
Lemma search_internal_ok pre it post w k : w <> [] -> e_word it = w -> ~ In w (map e_word pre) ->
  search_internal (pre ++ it :: post) w k = search (pre ++ it :: post) it k [w].
Proof.
  intros Nw Ew Np. unfold search_internal. rewrite first_item_some by auto. rewrite Ew.
  destruct (gseqb w []) eqn:E; [apply gseqb_true in E; contradiction|reflexivity].
Qed.

Lemma search_never_err items q k ign : match search items q k ign with Err _ => False | _ => True end.
Proof.
  unfold search. destruct (k <? 0); [exact I|].
  assert (G : forall its ns low, match search_items q ign its ns low with Err _ => False | _ => True end).
  { clear. induction its as [|x its IH]; intros ns low; cbn [search_items]; [exact I|]. destruct (ignored _ _); [apply IH|].
    destruct (comparable_dec q x) as [C|C]; [rewrite cosine_similarity by auto|rewrite cosine_panic by auto; exact I]. cbn [obind].
    destruct (fgt _ low); [|apply IH]. cbv zeta. destruct (bubble 0 _ ns); [exact I|apply IH]. }
  specialize (G items (repeat nb_zero (Z.to_nat k)) fzero). destruct (search_items _ _ _ _ _); cbn; auto.
Qed.
