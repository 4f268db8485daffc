(** * More about searching: prefixes, the order of the items, leaving out a word *)
From Coq Require Import Lia Reals Lra Sorting.Permutation Sorting.Sorted.
From Verif.Lib Require Import Go F64 F64Facts ListFacts Tac.
From Verif.Spec Require Import Search.
From Verif.Model Require Import Embedding Search.
From Verif.Proofs Require Import Search.
Local Open Scope Z_scope.

(** ** The answer depends on the vector and the norm of the query only *)
Lemma search_items_ext q q' ign : e_vec q = e_vec q' -> e_norm q = e_norm q' -> forall items ns low,
  search_items q ign items ns low = search_items q' ign items ns low.
Proof.
  intros E1 E2. induction items as [|it items IH]; intros ns low; [reflexivity|]. cbn [search_items]. rewrite E1, E2.
  destruct (ignored ign (e_word it)); [apply IH|]. destruct (cosine (e_vec q') (e_vec it) (e_norm q') (e_norm it)) as [s|m|]; cbn [obind]; auto.
  destruct (fgt s low); [|apply IH]. cbv zeta. destruct (bubble 0 (Nb (e_word it) 0 s) ns); [reflexivity|apply IH].
Qed.
Lemma search_ext q q' items k ign : e_vec q = e_vec q' -> e_norm q = e_norm q' -> search items q k ign = search items q' k ign.
Proof. intros E1 E2. unfold search. rewrite (search_items_ext q q') by auto. reflexivity. Qed.

(** ** A longer array extends a shorter one *)
Lemma bubble_app : forall ns ext i t, exists ext', bubble i t (ns ++ ext) = bubble i t ns ++ ext'.
Proof.
  induction ns as [|n ns IH]; intros ext i t; [exists (bubble i t ext); reflexivity|]. cbn [app bubble].
  destruct (fgt (n_sim t) (n_sim n)); [destruct (IH ext (i + 1) n) as [e E]|destruct (IH ext (i + 1) t) as [e E]]; exists e; rewrite E; reflexivity.
Qed.
Lemma bubble_skip : forall ns ext i t, Forall (fun n => fgt (n_sim t) (n_sim n) = false) ns -> exists ext', bubble i t (ns ++ ext) = ns ++ ext'.
Proof.
  induction ns as [|n ns IH]; intros ext i t F; [exists (bubble i t ext); reflexivity|]. inversion F as [|? ? F1 F2]; subst. cbn [app bubble]. rewrite F1.
  destruct (IH ext (i + 1) t F2) as [e E]. exists e. rewrite E. reflexivity.
Qed.

Lemma search_items_prefix q ign K K' : (1 <= K <= K')%nat -> forall items done ns low ext low',
  Forall (fun it => In (e_word it) ign \/ comparable q it) items ->
  loop_inv K (candidates done q ign) ns low -> loop_inv K' (candidates done q ign) (ns ++ ext) low' ->
  exists ns1 low1 ext1 low1', search_items q ign items ns low = Ret ns1 /\ search_items q ign items (ns ++ ext) low' = Ret (ns1 ++ ext1) /\
    loop_inv K (candidates (done ++ items) q ign) ns1 low1 /\ loop_inv K' (candidates (done ++ items) q ign) (ns1 ++ ext1) low1'.
Proof.
  intros HK. induction items as [|it items IH]; intros done ns low ext low' C I I'; cbn [search_items].
  - exists ns, low, ext, low'. rewrite app_nil_r. auto.
  - inversion C as [|? ? C1 C2]; subst. replace (done ++ it :: items) with ((done ++ [it]) ++ items) by (rewrite <- app_assoc; reflexivity).
    pose proof (candidates_pos done q ign) as CP.
    assert (Ec : candidates (done ++ [it]) q ign = candidates done q ign ++ (if is_cand q ign it then [(e_word it, similarity q it)] else [])).
    { rewrite candidates_app, candidates_cons, app_nil_r. reflexivity. }
    destruct (ignored ign (e_word it)) eqn:Ig.
    + apply IH; auto; rewrite Ec; unfold is_cand; apply ignored_in in Ig; destruct (in_dec _ _ _); try tauto; cbn [andb]; rewrite app_nil_r; auto.
    + assert (Ni : ~ In (e_word it) ign) by (intros Hi; apply ignored_in in Hi; congruence).
      destruct C1 as [C1|C1]; [tauto|]. rewrite cosine_similarity by auto. cbn [obind].
      assert (LL : fle low' low = true).
      { destruct I as (L & _ & _ & El & _), (I') as (L' & _ & S' & El' & _).
        assert (N0 : ns <> []) by (intros ->; cbn in L; lia).
        rewrite El, El'. apply sorted_last; auto; [|destruct ns; [congruence|discriminate]|apply in_or_app; left; apply last_in; exact N0].
        eapply Forall_impl; [|eapply inv_nonneg; [exact I'|exact CP]]. cbn. intros a Ha. eapply fle_nan_r; eauto. }
      destruct (fgt (similarity q it) low) eqn:E.
      * assert (E' : fgt (similarity q it) low' = true) by (eapply fgt_trans_le; eauto). rewrite E'.
        assert (Hc : is_cand q ign it = true).
        { unfold is_cand. destruct (in_dec _ _ _); [tauto|]. cbn [andb]. apply (fgt_trans_le _ low); auto. apply (low_nonneg K (candidates done q ign) ns); auto; lia. }
        destruct (loop_step_in K _ ns low (e_word it) (similarity q it) ltac:(lia) I CP E) as [N J].
        destruct (loop_step_in K' _ (ns ++ ext) low' (e_word it) (similarity q it) ltac:(lia) I' CP E') as [N' J'].
        destruct (bubble_app ns ext 0 (Nb (e_word it) 0 (similarity q it))) as [ext' B]. rewrite B in *. cbv zeta.
        set (ns' := bubble 0 (Nb (e_word it) 0 (similarity q it)) ns) in *. destruct ns' as [|n0 ns0]; [congruence|]. cbn [app].
        change (n0 :: ns0 ++ ext') with ((n0 :: ns0) ++ ext').
        apply IH; auto; rewrite Ec, Hc; auto.
      * assert (NN : Forall (fun n => isnan (n_sim n) = false) ns).
        { eapply Forall_impl; [|eapply inv_nonneg; [exact I|exact CP]]. cbn. intros a Ha. eapply fle_nan_r; eauto. }
        assert (Fz : Forall (fun n => fgt (similarity q it) (n_sim n) = false) ns).
        { apply Forall_forall. intros n Hn. destruct (fgt (similarity q it) (n_sim n)) eqn:G; [|reflexivity].
          assert (fgt (similarity q it) low = true); [|congruence]. apply (fgt_trans_le _ _ _ G). destruct I as (L & _ & So & El & _). rewrite El.
          apply sorted_last; auto. intros ->. destruct Hn. }
        destruct (fgt (similarity q it) low') eqn:E'.
        -- assert (Hp : fgt (similarity q it) fzero = true) by (apply (fgt_trans_le _ low'); auto; apply (low_nonneg K' (candidates done q ign) (ns ++ ext)); auto; lia).
           assert (Hc : is_cand q ign it = true) by (unfold is_cand; destruct (in_dec _ _ _); [tauto|exact Hp]).
           pose proof (loop_step_out K _ ns low (e_word it) (similarity q it) ltac:(lia) I CP Hp E) as J.
           destruct (loop_step_in K' _ (ns ++ ext) low' (e_word it) (similarity q it) ltac:(lia) I' CP E') as [N' J'].
           destruct (bubble_skip ns ext 0 (Nb (e_word it) 0 (similarity q it)) Fz) as [ext' B]. rewrite B in *. cbv zeta.
           destruct (ns ++ ext') as [|n0 ns0] eqn:En; [congruence|]. rewrite <- En in *.
           apply IH; auto; rewrite Ec, Hc; auto.
        -- assert (D : forall KK nn ll, (1 <= KK)%nat -> loop_inv KK (candidates done q ign) nn ll -> fgt (similarity q it) ll = false -> loop_inv KK (candidates (done ++ [it]) q ign) nn ll).
           { intros KK nn ll HKK II EE. rewrite Ec. unfold is_cand. destruct (in_dec _ _ _); [tauto|]. cbn [andb].
             destruct (fgt (similarity q it) fzero) eqn:Z; [|rewrite app_nil_r; auto]. apply loop_step_out; auto. }
           apply IH; auto; apply D; auto; lia.
Qed.

(** The rows that are not blank. *)
Definition filled (rows : list neighbor) : list neighbor := filter (fun n => negb (gseqb (n_word n) [])) rows.
Lemma filled_blank j : filled (repeat nb_zero j) = [].
Proof. induction j as [|j IH]; [reflexivity|]. cbn [repeat filled filter]. exact IH. Qed.
Lemma filled_ranked sel : Forall (fun c => fst c <> []) sel -> filled (ranked sel) = ranked sel.
Proof.
  intros F. assert (NE : Forall (fun n => n_word n <> []) (ranked sel)).
  { apply Forall_forall. intros n Hn. apply ranked_in in Hn. rewrite Forall_forall in F. apply (F _ Hn). }
  clear F. induction NE as [|n l H _ IH]; [reflexivity|]. cbn [filled filter]. destruct (gseqb (n_word n) []) eqn:G; [apply gseqb_true in G; contradiction|].
  cbn [negb]. f_equal. exact IH.
Qed.
Lemma filled_app a b : filled (a ++ b) = filled a ++ filled b.
Proof. apply filter_app. Qed.
Lemma ranked_pairs sel : map pr (ranked sel) = sel.
Proof.
  unfold ranked. rewrite map_map. unfold pr. cbn [n_word n_sim]. generalize 0%nat.
  induction sel as [|c sel IH]; intros i; [reflexivity|]. cbn [length seq combine map fst snd]. rewrite IH. destruct c; reflexivity.
Qed.

Lemma candidates_words items q ign : Forall (fun it => e_word it <> []) items -> Forall (fun c => fst c <> []) (candidates items q ign).
Proof.
  intros W. apply Forall_forall. intros c Hc. unfold candidates in Hc. apply in_map_iff in Hc. destruct Hc as (it & <- & Hi). apply filter_In in Hi.
  rewrite Forall_forall in W. apply (W it). tauto.
Qed.

Lemma search_filled items q k ign : 1 <= k -> Forall (fun it => e_word it <> []) items ->
  Forall (fun it => In (e_word it) ign \/ comparable q it) items ->
  exists sel rows, best (Z.to_nat k) (candidates items q ign) sel /\ search items q k ign = Ret rows /\ filled rows = ranked sel /\
    search_items q ign items (repeat nb_zero (Z.to_nat k)) fzero = Ret (ranked sel ++ repeat nb_zero (Z.to_nat k - length sel)).
Proof.
  intros Hk W C. assert (HK : (1 <= Z.to_nat k)%nat) by lia. pose proof (candidates_words items q ign W) as CW.
  destruct (search_items_spec q ign (Z.to_nat k) HK items [] _ _ C (init_inv _ q ign HK)) as (ns & low & E & I).
  cbn [app] in I. destruct (inv_final _ _ _ _ HK (candidates_pos items q ign) I) as (sel & Bs & En & Fs).
  assert (Fw : Forall (fun c => fst c <> []) sel) by (apply Forall_forall; intros c Hc; rewrite Forall_forall in Fs, CW; auto).
  exists sel. eexists. split; [exact Bs|]. unfold search. destruct (Z.ltb_spec k 0); [lia|]. rewrite E. cbn [obind]. split; [reflexivity|].
  split; [|rewrite En; reflexivity].
  rewrite En, guard_words.
  2:{ apply Forall_forall. intros n Hn. apply ranked_in in Hn. rewrite Forall_forall in Fw. apply (Fw _ Hn). }
  assert (Ls : (length sel <= Z.to_nat k)%nat) by (destruct Bs as (? & _ & _ & _ & ->); lia).
  rewrite ranked_length. remember (Z.to_nat k - length sel)%nat as j eqn:Ej. destruct j as [|j].
  - cbn [repeat guard]. rewrite firstn_all2 by (rewrite app_nil_r, ranked_length; lia). rewrite app_nil_r. apply filled_ranked, Fw.
  - rewrite guard_blanks. replace (Z.to_nat (0 + Z.of_nat (length sel) + Z.of_nat j)) with (length (ranked sel) + j)%nat by (rewrite ranked_length; lia).
    rewrite firstn_app_2, filled_app, filled_ranked by exact Fw.
    assert (firstn j (repeat nb_zero (S j)) = repeat nb_zero j) as ->. { clear. induction j as [|j IH]; [reflexivity|]. cbn [repeat firstn] in *. f_equal. exact IH. }
    rewrite filled_blank, app_nil_r. reflexivity.
Qed.

Lemma firstn_repeat {A} (x : A) : forall n m, firstn n (repeat x m) = repeat x (Nat.min n m).
Proof. induction n as [|n IH]; intros [|m]; cbn [repeat firstn Nat.min]; try reflexivity. f_equal. apply IH. Qed.

Theorem search_prefix items q k k' ign : 1 <= k <= k' -> Forall (fun it => e_word it <> []) items ->
  Forall (fun it => In (e_word it) ign \/ comparable q it) items ->
  exists rows rows', search items q k ign = Ret rows /\ search items q k' ign = Ret rows' /\ filled rows = firstn (Z.to_nat k) (filled rows').
Proof.
  intros Hk W C.
  destruct (search_filled items q k ign ltac:(lia) W C) as (sel & rows & Bs & Es & Fs & Is).
  destruct (search_filled items q k' ign ltac:(lia) W C) as (sel' & rows' & Bs' & Es' & Fs' & Is').
  exists rows, rows'. split; [exact Es|]. split; [exact Es'|]. rewrite Fs, Fs'.
  assert (HK : (1 <= Z.to_nat k <= Z.to_nat k')%nat) by lia.
  pose proof (init_inv (Z.to_nat k) q ign ltac:(lia)) as I0. pose proof (init_inv (Z.to_nat k') q ign ltac:(lia)) as I0'.
  assert (Er : repeat nb_zero (Z.to_nat k') = repeat nb_zero (Z.to_nat k) ++ repeat nb_zero (Z.to_nat k' - Z.to_nat k)) by (rewrite <- repeat_app; f_equal; lia).
  rewrite Er in I0', Is'.
  destruct (search_items_prefix q ign _ _ HK items [] _ _ _ _ C I0 I0') as (ns1 & low1 & ext1 & low1' & E1 & E1' & _).
  rewrite Is in E1. injection E1 as <-. rewrite Is' in E1'. injection E1' as E2.
  destruct Bs as (r & _ & _ & _ & Ls), Bs' as (r' & _ & _ & _ & Ls').
  assert (Hx : firstn (length sel) (ranked sel') = ranked sel).
  { apply (f_equal (firstn (length sel))) in E2. rewrite <- app_assoc in E2. rewrite firstn_app in E2. rewrite ranked_length in E2.
    replace (length sel - length sel')%nat with 0%nat in E2 by lia. cbn [firstn] in E2. rewrite app_nil_r in E2. rewrite E2.
    rewrite firstn_app, ranked_length. rewrite Nat.sub_diag. cbn [firstn]. rewrite app_nil_r. apply firstn_all2. rewrite ranked_length. lia. }
  destruct (Nat.le_gt_cases (Z.to_nat k) (length (candidates items q ign))) as [H|H].
  - replace (Z.to_nat k) with (length sel) by lia. symmetry. exact Hx.
  - rewrite firstn_all2 by (rewrite ranked_length; lia). rewrite <- Hx. apply firstn_all2. rewrite ranked_length. lia.
Qed.

(** ** Without ties the answer is determined *)
Definition no_tie (cs : list (gostring * f64)) : Prop := forall a b, In a cs -> In b cs -> feq (snd a) (snd b) = true -> a = b.
Lemma best_unique : forall sel k cs cs' sel', Permutation cs cs' -> no_tie cs -> best k cs sel -> best k cs' sel' -> sel = sel'.
Proof.
  induction sel as [|a sel IH]; intros k cs cs' sel' P NT (r & P1 & S1 & B1 & L1) (r' & P2 & S2 & B2 & L2).
  - destruct sel'; [reflexivity|]. rewrite <- (Permutation_length P) in L2. cbn [length] in *. lia.
  - rewrite <- (Permutation_length P) in L2. destruct sel' as [|a' sel']; [cbn [length] in *; lia|].
    pose proof (fle_refl) as FR.
    assert (M : forall b, In b cs -> ge a b \/ b = a).
    { intros b Hb. apply (Permutation_in _ (Permutation_sym P1)), in_app_or in Hb. inversion S1 as [|? ? _ F]; subst. rewrite Forall_forall in F.
        destruct Hb as [[Hb|Hb]|Hb]; [right; congruence|left; exact (F b Hb)|left]. unfold ge. apply (B1 b a Hb). left. reflexivity. }
    assert (M' : forall b, In b cs -> ge a' b \/ b = a').
    { intros b Hb. apply (Permutation_in _ P) in Hb. apply (Permutation_in _ (Permutation_sym P2)), in_app_or in Hb. inversion S2 as [|? ? _ F]; subst. rewrite Forall_forall in F.
        destruct Hb as [[Hb|Hb]|Hb]; [right; congruence|left; exact (F b Hb)|left]. unfold ge. apply (B2 b a' Hb). left. reflexivity. }
    assert (Ha : In a cs) by (apply (Permutation_in _ P1); left; reflexivity).
    assert (Ha' : In a' cs) by (apply (Permutation_in _ (Permutation_sym P)), (Permutation_in _ P2); left; reflexivity).
    assert (a = a') as <-.
    { destruct (M a' Ha') as [G|E]; [|congruence]. destruct (M' a Ha) as [G'|E]; [|congruence]. apply NT; auto. unfold ge in *. rewrite fle_spec in G, G'. apply feq_spec.
      destruct G as (X & Y & Z), G' as (_ & _ & Z'). repeat split; auto. lra. }
    f_equal. inversion S1; inversion S2; subst.
    apply (IH (k - 1)%nat (sel ++ r) (sel' ++ r')).
    + apply (Permutation_cons_inv (a := a)). change (Permutation ((a :: sel) ++ r) ((a :: sel') ++ r')).
      rewrite P1, P, P2. reflexivity.
    + intros x y Hx Hy. apply NT; apply (Permutation_in _ P1); right; auto.
    + exists r. split; [reflexivity|]. split; [assumption|]. split; [intros x y Hx Hy; apply B1; auto; right; auto|].
      apply Permutation_length in P1. cbn [app length] in *. lia.
    + exists r'. split; [reflexivity|]. split; [assumption|]. split; [intros x y Hx Hy; apply B2; auto; right; auto|].
      apply Permutation_length in P1. apply Permutation_length in P2. apply Permutation_length in P. cbn [app length] in *. lia.
Qed.

Lemma Permutation_filter {A} (f : A -> bool) l l' : Permutation l l' -> Permutation (filter f l) (filter f l').
Proof.
  induction 1 as [|x l l' P IH|x y l|l l' l'' P1 IH1 P2 IH2]; cbn [filter]; auto.
  - destruct (f x); auto.
  - destruct (f x), (f y); auto. apply perm_swap.
  - eapply Permutation_trans; eauto.
Qed.
Lemma candidates_perm items items' q ign : Permutation items items' -> Permutation (candidates items q ign) (candidates items' q ign).
Proof. intros P. unfold candidates. apply Permutation_map, Permutation_filter, P. Qed.

Theorem search_order items items' q k ign : 1 <= k -> Permutation items items' -> Forall (fun it => e_word it <> []) items ->
  no_tie (candidates items q ign) -> search items q k ign = search items' q k ign.
Proof.
  intros Hk P W NT.
  assert (W' : Forall (fun it => e_word it <> []) items') by (eapply Permutation_Forall; eauto).
  assert (D : forall it, {In (e_word it) ign \/ comparable q it} + {~ (In (e_word it) ign \/ comparable q it)}).
  { intros it. destruct (in_dec gostring_eq_dec (e_word it) ign); [left; auto|]. unfold comparable. destruct (feq (e_norm q) fzero); [left; auto|]. destruct (feq (e_norm it) fzero); [left; auto|].
    destruct (le_dec (length (e_vec q)) (length (e_vec it))); [left; auto|]. right. intros [H|[H|[H|H]]]; auto; discriminate H. }
  destruct (Forall_dec _ D items) as [C|C].
  - assert (C' : Forall (fun it => In (e_word it) ign \/ comparable q it) items') by (eapply Permutation_Forall; eauto).
    destruct (search_ok items q k ign Hk C (candidates_words _ _ _ W)) as (sel & B & ->). destruct (search_ok items' q k ign Hk C' (candidates_words _ _ _ W')) as (sel' & B' & ->).
    rewrite (best_unique _ _ _ _ _ (candidates_perm _ _ q ign P) NT B B'). reflexivity.
  - rewrite (search_bad items) by exact C. rewrite (search_bad items'); [reflexivity|]. intros C'. apply C. eapply Permutation_Forall; [apply Permutation_sym; exact P|exact C'].
Qed.

(** ** Leaving out one word *)
Definition other (w : gostring) (c : gostring * f64) : bool := negb (gseqb (fst c) w).
Lemma filter_sorted {A} (R : A -> A -> Prop) f l : StronglySorted R l -> StronglySorted R (filter f l).
Proof.
  induction 1 as [|a l S IH F]; [constructor|]. cbn [filter]. destruct (f a); [|exact IH]. constructor; [exact IH|].
  apply Forall_forall. intros x Hx. apply filter_In in Hx. rewrite Forall_forall in F. apply F. tauto.
Qed.
Lemma filter_one (w : gostring) : forall sel : list (gostring * f64), NoDup (map fst sel) -> (length sel <= S (length (filter (other w) sel)))%nat.
Proof.
  assert (G : forall sel : list (gostring * f64), ~ In w (map fst sel) -> filter (other w) sel = sel).
  { induction sel as [|c sel IH]; intros H; [reflexivity|]. cbn [filter map] in *. unfold other at 1. destruct (gseqb (fst c) w) eqn:E; [apply gseqb_true in E; exfalso; apply H; left; auto|].
    cbn [negb]. f_equal. apply IH. intros Hi. apply H. right. exact Hi. }
  induction sel as [|c sel IH]; intros N; [cbn; lia|]. cbn [map] in N. inversion N as [|? ? N1 N2]; subst. cbn [filter]. unfold other at 1. destruct (gseqb (fst c) w) eqn:E; cbn [negb].
  - apply gseqb_true in E. rewrite G by congruence. cbn [length]. lia.
  - cbn [length]. specialize (IH N2). lia.
Qed.
Lemma NoDup_app_l {A} (l l' : list A) : NoDup (l ++ l') -> NoDup l.
Proof. induction l as [|a l IH]; intros N; [constructor|]. inversion N; subst. constructor; auto. intros H. apply H1. apply in_or_app. auto. Qed.

Lemma best_without w k cs sel : NoDup (map fst cs) -> best (S k) cs sel -> best k (filter (other w) cs) (firstn k (filter (other w) sel)).
Proof.
  intros N (r & P & So & B & L). set (s := filter (other w) sel).
  assert (Ns : NoDup (map fst sel)).
  { apply (NoDup_app_l _ (map fst r)). rewrite <- map_app. eapply Permutation_NoDup; [apply Permutation_map, Permutation_sym; exact P|exact N]. }
  pose proof (filter_one w sel Ns) as L1. fold s in L1.
  pose proof (filter_sorted _ (other w) sel So) as Ss. fold s in Ss. rewrite <- (firstn_skipn k s) in Ss. destruct (sorted_app_inv _ _ _ Ss) as (S1 & _ & S2).
  assert (PF : Permutation (s ++ filter (other w) r) (filter (other w) cs)) by (unfold s; rewrite <- filter_app; apply Permutation_filter; exact P).
  exists (skipn k s ++ filter (other w) r). split; [rewrite app_assoc, firstn_skipn; exact PF|]. split; [exact S1|]. split.
  - intros a b Ha Hb. apply in_app_or in Ha. destruct Ha as [Ha|Ha]; [apply (S2 b a Hb Ha)|]. apply filter_In in Ha.
    assert (Hb' : In b s) by (rewrite <- (firstn_skipn k s); apply in_or_app; auto). apply filter_In in Hb'. apply B; tauto.
  - rewrite firstn_length. pose proof (Permutation_length PF) as LF. rewrite app_length in LF. pose proof (Permutation_length P) as LP. rewrite app_length in LP.
    destruct r as [|x r]; [cbn [filter length] in LF; lia|]. cbn [length] in LP. lia.
Qed.

Lemma candidates_ignore items q w : candidates items q [w] = filter (other w) (candidates items q []).
Proof.
  induction items as [|it items IH]; [reflexivity|]. rewrite !candidates_cons, IH, filter_app. f_equal. unfold is_cand.
  destruct (in_dec gostring_eq_dec (e_word it) []) as [[]|_]. cbn [andb].
  destruct (in_dec gostring_eq_dec (e_word it) [w]) as [[<-|[]]|N]; destruct (fgt (similarity q it) fzero); cbn [andb filter]; unfold other; cbn [fst]; try reflexivity.
  - rewrite gseqb_refl. reflexivity.
  - destruct (gseqb (e_word it) w) eqn:G; [apply gseqb_true in G; exfalso; apply N; left; auto|reflexivity].
Qed.

Theorem search_without items q w k : 1 <= k -> Forall (fun it => e_word it <> []) items -> NoDup (map e_word items) ->
  Forall (fun it => comparable q it) items -> no_tie (candidates items q []) ->
  exists rows rows', search items q k [w] = Ret rows /\ search items q (k + 1) [] = Ret rows' /\
    map pr (filled rows) = firstn (Z.to_nat k) (filter (other w) (map pr (filled rows'))).
Proof.
  intros Hk W ND C NT.
  assert (C0 : forall ign, Forall (fun it => In (e_word it) ign \/ comparable q it) items) by (intros ign; eapply Forall_impl; [|exact C]; auto).
  destruct (search_filled items q k [w] Hk W (C0 _)) as (sel & rows & B & E & F & _).
  destruct (search_filled items q (k + 1) [] ltac:(lia) W (C0 _)) as (sel' & rows' & B' & E' & F' & _).
  exists rows, rows'. split; [exact E|]. split; [exact E'|]. rewrite F, F', !ranked_pairs.
  replace (Z.to_nat (k + 1)) with (S (Z.to_nat k)) in B' by lia.
  assert (NC : NoDup (map fst (candidates items q []))).
  { unfold candidates. rewrite map_map. cbn [fst]. apply (NoDup_map_filter _ _ _ ND) || (clear - ND; induction items as [|it items IH]; [constructor|]; cbn [map] in ND; inversion ND as [|? ? N1 N2]; subst; cbn [filter];
      destruct (_ && _); [|auto]; cbn [map]; constructor; [|auto]; intros H; apply N1; apply in_map_iff in H; destruct H as (x & <- & Hx); apply in_map; apply filter_In in Hx; tauto). }
  apply (best_without w) in B'; auto. rewrite candidates_ignore in B.
  eapply best_unique; [apply Permutation_refl| |exact B|exact B']. intros a b Ha Hb. apply filter_In in Ha, Hb. apply NT; tauto.
Qed.
