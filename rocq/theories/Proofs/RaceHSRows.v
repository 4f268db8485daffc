(** Which rows of the parameters the goroutines write, for hierarchical softmax. *)
From Coq Require Import Lia.
From Verif.Lib Require Import Go F64 ListFacts Tac.
From Verif.Model Require Import ModelUtil Matrix Cells Huffman Subsample Sigmoid RaceHS Word2vec Options Train.
From Verif.Spec Require Import RaceHS.
From Verif.Proofs Require RaceRows.
Local Open Scope Z_scope.

Section Rows.
(** The rows of the parameters that may be written. *)
Variable W : Z -> Prop.

Definition same_rows (m m' : hmem) : Prop := forall j, ~ W j -> mat_slice (hm_p m') j = mat_slice (hm_p m) j.
Definition keeps {A} (f : f64 -> hmem -> outcome (hmem * A)) : Prop := forall x m m' a, f x m = Ret (m', a) -> same_rows m m'.

Fixpoint hwrites {R} (p : hprog R) : Prop :=
  match p with
  | HRet r => True
  | HPanic => True
  | HAct rnd f k => keeps f /\ forall a, hwrites (k a)
  end.

Lemma hwrites_bind {R S} (f : R -> hprog S) (p : hprog R) : hwrites p -> (forall r, hwrites (f r)) -> hwrites (hbind p f).
Proof. induction p as [r| |A rnd a k IH]; cbn; intros H HF; auto. destruct H as (H1 & H2). split; auto. Qed.

Lemma hexec_writes {R} x m (p : hprog R) m' p' : hwrites p -> hexec x m p = Ret (m', p') -> hwrites p' /\ same_rows m m'.
Proof.
  intros HW HE. destruct p as [r| |A rnd f k]; cbn in *; try discriminate.
  - injection HE as <- <-. split; [exact I|]. intros j _. reflexivity.
  - destruct HW as (H1 & H2). destruct (f x m) as [[m1 a]| |] eqn:E; cbn in HE; try discriminate. injection HE as <- <-. split; [apply H2|]. eapply H1; eauto.
Qed.

Lemma hruns_writes ts m s : Forall hwrites ts -> hruns (HSys m ts) s -> Forall hwrites (hy_threads s) /\ same_rows m (hy_mem s).
Proof.
  intros HA HR. remember (HSys m ts) as s0 eqn:E0. induction HR as [s|s s' s'' HR IH HS]; subst.
  - cbn. split; [exact HA|]. intros j _. reflexivity.
  - destruct (IH eq_refl) as (HT & HM). inversion HS; subst; cbn in *.
    + match goal with H : nth_error _ _ = Some ?p |- _ => rename p into q; assert (HW : hwrites q) by (rewrite Forall_forall in HT; apply HT; eapply nth_error_In; eauto) end.
      match goal with H : obind (hexec ?x ?m1 q) _ = Ret _ |- _ => destruct (hexec x m1 q) as [[m' p']| |] eqn:EX; cbn in H; try discriminate; injection H as <- end.
      destruct (hexec_writes _ _ _ _ _ HW EX) as (HP & HM'). cbn. split.
      * clear -HT HP. revert i. induction HT as [|t ts' H HT IHt]; intros [|i]; cbn; constructor; auto.
      * intros j Hj. rewrite (HM' j Hj). apply HM. exact Hj.
    + auto.
Qed.

Lemma hduring_writes ts m0 k s : Forall hwrites ts -> hduring ts m0 k s -> same_rows m0 (hy_mem s).
Proof.
  intros HA HD. induction HD as [s HR|k s s' HD IH HF HR].
  - apply (hruns_writes ts m0 s HA HR).
  - intros j Hj. rewrite (proj2 (hruns_writes ts (hy_mem s) s' HA HR) j Hj). apply IH. exact Hj.
Qed.

(** ** The accesses *)
Lemma keeps_get {A} (f : hmem -> A) : keeps (get f).
Proof. intros x m m' a E. injection E as <- <-. intros j _. reflexivity. Qed.
Lemma keeps_get_or_panic {A} (f : hmem -> outcome A) : keeps (get_or_panic f).
Proof. intros x m m' a E. unfold get_or_panic in E. destruct (f m); cbn in E; try discriminate. injection E as <- <-. intros j _. reflexivity. Qed.
Lemma keeps_set_param row i y : W row -> keeps (a_set_param row i y).
Proof.
  intros H x m m' a E. unfold a_set_param in E. destruct (set_cell _ _ _ _) as [p| |] eqn:E1; cbn in E; try discriminate. injection E as <- <-.
  intros j Hj. cbn. apply (RaceRows.set_cell_other _ _ _ _ _ _ E1). intros ->. auto.
Qed.
Lemma keeps_set_vec n j y : keeps (a_set_vec n j y).
Proof. intros x m m' a E. unfold a_set_vec in E. destruct (zindex _ _); try discriminate. injection E as <- <-. intros i _. reflexivity. Qed.
Lemma keeps_set_next z : keeps (a_set_next z).
Proof. intros x m m' a E. injection E as <- <-. intros i _. reflexivity. Qed.
Lemma keeps_rand : keeps a_rand.
Proof. intros x m m' a E. injection E as <- <-. intros i _. reflexivity. Qed.
Lemma keeps_make n : keeps (a_make n).
Proof. intros x m m' a E. injection E as <- <-. intros i _. reflexivity. Qed.
Lemma keeps_append n p : keeps (a_append n p).
Proof.
  intros x m m' a E. unfold a_append in E. cbv zeta in E. destruct (_ <? _)%nat in E; injection E as <- <-; intros i _; reflexivity.
Qed.
Lemma keeps_swap h i j : keeps (a_swap h i j).
Proof. intros x m m' a E. injection E as <- <-. intros k _. reflexivity. Qed.

Ltac act := split; [first [apply keeps_get|apply keeps_get_or_panic|apply keeps_set_vec|apply keeps_set_next|apply keeps_rand|apply keeps_make|apply keeps_append|apply keeps_swap]|].

(** ** The programs *)
Variable tree : heap.
Variable sig : f64 -> outcome f64.

Lemma next_hwrites v : hwrites (h_next_random v).
Proof. unfold h_next_random. act. intros n. act. intros _. act. intros n'. cbv zeta. destruct (_ =? 0); exact I. Qed.

Lemma appends_hwrites n : forall up, hwrites (h_appends n up).
Proof. induction up as [|p up IH]; [exact I|]. cbn [h_appends]. act. intros _. exact IH. Qed.
Lemma reverse_hwrites h : forall fuel i, hwrites (h_reverse h fuel i).
Proof. induction fuel as [|k IH]; intros i; [exact I|]. cbn [h_reverse]. act. intros _. apply IH. Qed.
Lemma cut_hwrites n d : hwrites (h_cut n d).
Proof.
  unfold h_cut. act. intros len. destruct (d >? len).
  - act. intros l'. act. intros h. exact I.
  - act. intros h. exact I.
Qed.
Lemma getpath_hwrites n d : hwrites (h_getpath tree n d).
Proof.
  unfold h_getpath. act. intros b. destruct b; [|apply cut_hwrites]. act. intros _.
  apply hwrites_bind; [apply appends_hwrites|]. intros _. act. intros h.
  apply hwrites_bind; [apply reverse_hwrites|]. intros _. apply cut_hwrites.
Qed.

Lemma src_hwrites c j : hwrites (h_src c j).
Proof. destruct c as [row|v]; cbn [h_src]; [act; intros x; exact I|]. destruct (zindex v j); exact I. Qed.
Lemma inner_hwrites p c : forall n j acc, hwrites (h_inner p c n j acc).
Proof.
  induction n as [|n IH]; intros j acc; [exact I|]. cbn [h_inner]. apply hwrites_bind; [apply src_hwrites|]. intros r. act. intros v. apply IH.
Qed.
Lemma apply_hwrites p c g : forall n j tmp, hwrites (h_apply p c g n j tmp).
Proof.
  induction n as [|n IH]; intros j tmp; [exact I|]. cbn [h_apply]. act. intros v. destruct (zindex tmp j); [|exact I].
  act. intros v'. apply hwrites_bind; [apply src_hwrites|]. intros r. act. intros _. apply IH.
Qed.
Lemma hs_loop_hwrites lr c path : forall n i tmp, hwrites (h_hs_loop tree sig lr c path n i tmp).
Proof.
  induction n as [|n IH]; intros i tmp; [exact I|]. cbn [h_hs_loop]. act. intros e. act. intros e'. act. intros q. act. intros p. act. intros len.
  apply hwrites_bind; [apply inner_hwrites|]. intros inner. destruct (_ || _); [exact I|]. act. intros s. cbv zeta.
  apply hwrites_bind; [apply apply_hwrites|]. intros tmp'. apply IH.
Qed.
Lemma optim_hwrites set d lr c id tmp : hwrites (h_optim tree sig set d lr c id tmp).
Proof.
  unfold h_optim. destruct (zindex set id); [|exact I]. apply hwrites_bind; [apply getpath_hwrites|]. intros path. apply hs_loop_hwrites.
Qed.

Lemma win_hwrites {St} (body : Z -> St -> hprog St) len pos window : (forall c st, hwrites (body c st)) ->
  forall n a st, hwrites (h_win_loop body len pos window n a st).
Proof.
  intros HB. induction n as [|n IH]; intros a st; [exact I|]. cbn [h_win_loop]. apply hwrites_bind; [|intros r; apply IH].
  destruct (a =? window); [exact I|]. cbv zeta. destruct (_ || _); [exact I|]. apply HB.
Qed.

Lemma add_row_hwrites row tmp : W row -> forall n i, hwrites (h_add_row row n i tmp).
Proof.
  intros HW. induction n as [|n IH]; intros i; [exact I|]. cbn [h_add_row]. act. intros x. destruct (zindex tmp i); [|exact I].
  split; [apply keeps_set_param; exact HW|]. intros _. apply IH.
Qed.
Lemma collect_hwrites row : forall n i agg, hwrites (h_collect row n i agg).
Proof.
  induction n as [|n IH]; intros i agg; [exact I|]. cbn [h_collect]. destruct (zindex agg i); [|exact I]. act. intros x. apply IH.
Qed.

Lemma zindex_in {A} (l : list A) i x : zindex l i = Some x -> In x l.
Proof. unfold zindex. destruct (i <? 0); [discriminate|]. apply nth_error_In. Qed.

Section Doc.
Variable doc : list Z.
Hypothesis HD : Forall W doc.

Lemma doc_row c u : zindex doc c = Some u -> W u.
Proof. intros E. rewrite Forall_forall in HD. apply HD. eapply zindex_in; eauto. Qed.

Lemma sg_hwrites set d lr dim window tmp pos : hwrites (h_sg_train_one tree sig set d lr dim window doc tmp pos).
Proof.
  unfold h_sg_train_one. apply hwrites_bind; [apply next_hwrites|]. intros del. apply hwrites_bind; [|intros; exact I].
  unfold h_windowed. apply win_hwrites. intros c st. unfold h_sg_body.
  destruct (zindex doc c) as [u|] eqn:E1; [|exact I]. destruct (zindex doc pos) as [w|]; [|exact I].
  act. intros _. apply hwrites_bind; [apply optim_hwrites|]. intros tmp'.
  apply hwrites_bind; [apply add_row_hwrites; eapply doc_row; eauto|]. intros _. exact I.
Qed.

Lemma cb_hwrites set d lr dim window agg tmp pos : hwrites (h_cb_train_one tree sig set d lr dim window doc agg tmp pos).
Proof.
  unfold h_cb_train_one. cbv zeta. apply hwrites_bind.
  { unfold h_dowith. apply hwrites_bind; [apply next_hwrites|]. intros del. unfold h_windowed. apply win_hwrites. intros c st.
    unfold h_cb_aggregate. destruct (zindex doc c); [|exact I]. act. intros _. apply collect_hwrites. }
  intros agg'. destruct (zindex doc pos) as [w|]; [|exact I]. apply hwrites_bind; [apply optim_hwrites|]. intros tmp'.
  apply hwrites_bind; [|intros; exact I]. unfold h_dowith. apply hwrites_bind; [apply next_hwrites|]. intros del.
  unfold h_windowed. apply win_hwrites. intros c st. unfold h_cb_update. destruct (zindex doc c) as [u|] eqn:E1; [|exact I].
  act. intros _. apply hwrites_bind; [apply add_row_hwrites; eapply doc_row; eauto|]. intros _. exact I.
Qed.
End Doc.

Lemma visit_hwrites samples train : (forall pos, hwrites (train pos)) -> forall todo pos, hwrites (h_visit samples train pos todo).
Proof.
  intros HT. induction todo as [|id todo IH]; intros pos; [exact I|]. cbn [h_visit]. act. intros x.
  destruct (trial samples id x) as [b| |]; [|exact I|exact I]. apply hwrites_bind; [destruct b; [apply HT|exact I]|]. intros _. apply IH.
Qed.

Lemma worker_hwrites cbow set d dim window samples agg tmp (doc : list nat) : (forall i, In i doc -> W (Z.of_nat i)) ->
  hwrites (h_worker tree sig cbow set d dim window samples agg tmp doc).
Proof.
  intros H. unfold h_worker. apply visit_hwrites. intros pos. act. intros lr.
  assert (Forall W (map Z.of_nat doc)) as HF by (apply Forall_forall; intros z Hz; apply in_map_iff in Hz; destruct Hz as (i & <- & Hi); auto).
  destruct cbow; [apply cb_hwrites|apply sg_hwrites]; exact HF.
Qed.
End Rows.
