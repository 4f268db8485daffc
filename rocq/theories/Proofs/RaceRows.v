(** Which rows the goroutines write. *)
From Coq Require Import Lia.
From Verif.Lib Require Import Go F64 ListFacts Tac.
From Verif.Model Require Import ModelUtil Encode Matrix Cells Subsample Sigmoid Glove Lexvec Race.
From Verif.Spec Require Import Rows Race.
From Verif.Proofs Require Import Matrix ModelUtil Race.
Local Open Scope Z_scope.

(** A store into one row leaves every other row as it is. *)
Lemma set_cell_other m r i x m' j : set_cell m r i x = Ret m' -> j <> r -> mat_slice m' j = mat_slice m j.
Proof.
  unfold set_cell, mat_slice at 1. unfold slice_ok, start_index.
  destruct (Z.leb_spec 0 (r * m_col m)) as [H1|]; [|discriminate].
  destruct (Z.leb_spec (r * m_col m) (r * m_col m + m_col m)) as [H2|]; [|discriminate].
  destruct (Z.leb_spec (r * m_col m + m_col m) (Z.of_nat (length (m_array m)))) as [H3|]; [|discriminate].
  cbn [andb obind]. set (old := firstn _ _).
  assert (Lo : Z.of_nat (length old) = m_col m) by (unfold old; rewrite firstn_length, skipn_length; lia).
  destruct (zindex old i) as [y|] eqn:Ei; [|discriminate]. intros E Hj. injection E as <-.
  assert (Hc : 0 < m_col m).
  { unfold zindex in Ei. destruct (i <? 0); [discriminate|]. assert (nth_error old (Z.to_nat i) <> None) as N by congruence.
    apply nth_error_Some in N. lia. }
  set (new := upd old (Z.to_nat i) x). assert (Ln : length new = length old) by (unfold new; apply upd_length).
  unfold mat_slice, mat_store, start_index, slice_ok. cbn [m_array m_col].
  rewrite splice_length by lia.
  destruct (Z.leb_spec 0 (j * m_col m)) as [J1|]; [|reflexivity].
  destruct (Z.leb_spec (j * m_col m) (j * m_col m + m_col m)) as [J2|]; [|reflexivity].
  destruct (Z.leb_spec (j * m_col m + m_col m) (Z.of_nat (length (m_array m)))) as [J3|]; [|reflexivity].
  cbn [andb]. f_equal. apply nth_ext_error. intros k. rewrite !nth_error_firstn_skipn.
  destruct (Nat.ltb_spec k (Z.to_nat (m_col m))) as [K|K]; [|reflexivity].
  rewrite nth_error_splice by lia.
  destruct (Nat.leb_spec (Z.to_nat (r * m_col m)) (Z.to_nat (j * m_col m) + k)) as [K1|]; [|reflexivity].
  destruct (Nat.ltb_spec (Z.to_nat (j * m_col m) + k) (Z.to_nat (r * m_col m) + length new)) as [K2|]; [|reflexivity].
  exfalso. assert (j < r \/ r < j) as [HL|HL] by lia; nia.
Qed.

Section Rows.
(** The rows of the parameters that may be written. *)
Variable W : Z -> Prop.

Fixpoint writes {R} (p : prog R) (Post : R -> Prop) : Prop :=
  match p with
  | PRet r => Post r
  | PPanic => True
  | PSlice g row k => writes k Post
  | PLoad g row i k => forall x, writes (k x) Post
  | PStore g row i x k => (g = false -> W row) /\ writes k Post
  | PLoadNext k => forall z, writes (k z) Post
  | PStoreNext z k => writes k Post
  | PLr k => forall x, writes (k x) Post
  | PRand k => forall x, writes (k x) Post
  | PLookup y k => forall x, writes (k x) Post
  end.

Lemma writes_bind {R S} (f : R -> prog S) (Post' : S -> Prop) (p : prog R) : forall (P : R -> Prop),
  writes p P -> (forall r, P r -> writes (f r) Post') -> writes (pbind p f) Post'.
Proof.
  induction p as [r| |g row k IH|g row i k IH|g row i x k IH|k IH|z k IH|k IH|k IH|y k IH]; cbn; intros P HS HF; eauto.
  destruct HS as (A & B). eauto.
Qed.

(** Every other row of [m'] is as in [m]. *)
Definition same_rows (m m' : smem) : Prop := forall j, ~ W j -> mat_slice (sm_p m') j = mat_slice (sm_p m) j.

Lemma pexec_writes {R} sig (Post : R -> Prop) x m p m' p' : writes p Post -> pexec sig x m p = Ret (m', p') ->
  writes p' Post /\ same_rows m m'.
Proof.
  intros HW HE. assert (same_rows m m) as HM by (intros j _; reflexivity).
  destruct p as [r| |g row k|g row i k|g row i y k|k|z k|k|k|y k]; cbn in *.
  - injection HE as <- <-. auto.
  - discriminate.
  - destruct (mat_slice _ _); cbn in HE; try discriminate. injection HE as <- <-. auto.
  - destruct (cell _ _ _); cbn in HE; try discriminate. injection HE as <- <-. auto.
  - destruct (set_cell _ _ _ _) as [a| |] eqn:E; cbn in HE; try discriminate. injection HE as <- <-. destruct HW as (A & B). split; [exact B|].
    intros j Hj. destruct g; [reflexivity|]. cbn in *. apply (set_cell_other _ _ _ _ _ _ E). intros ->. apply Hj. auto.
  - injection HE as <- <-. auto.
  - injection HE as <- <-. split; auto.
  - injection HE as <- <-. auto.
  - injection HE as <- <-. auto.
  - destruct (sig y); cbn in HE; try discriminate. injection HE as <- <-. auto.
Qed.

Lemma runs_writes {R} sig (Post : R -> Prop) ts m n s : Forall (fun p => writes p Post) ts -> sys_runs sig n (Sys m ts) s ->
  Forall (fun p => writes p Post) (y_threads s) /\ same_rows m (y_mem s).
Proof.
  intros HA HR. remember (Sys m ts) as s0 eqn:E0. induction HR as [s|n s s' s'' HR IH HS|n s s' s'' HR IH HE]; subst.
  - cbn. split; [exact HA|]. intros j _. reflexivity.
  - destruct (IH eq_refl) as (HT & HM). inversion HS as [m1 ts1 i p x EN ED EQ1 EQ2]. subst s'. cbn in HT, HM.
    destruct (pexec sig x m1 p) as [[m' p']| |] eqn:EX; cbn in EQ2; try discriminate. injection EQ2 as <-. cbn.
    assert (HW : writes p Post) by (rewrite Forall_forall in HT; apply HT; eapply nth_error_In; eauto).
    destruct (pexec_writes sig Post x m1 p m' p' HW EX) as (HP & HM'). split.
    + clear -HT HP. revert i. induction HT as [|t ts H HT IHt]; intros [|i]; cbn; constructor; auto.
    + intros j Hj. rewrite (HM' j Hj). apply HM. exact Hj.
  - destruct (IH eq_refl) as (HT & HM). inversion HE as [m1 ts1 lr EQ1 EQ2]. subst s' s''. cbn in *. auto.
Qed.

Lemma during_writes sig ts m0 k n s : Forall (fun p => writes p (fun _ : unit => True)) ts -> during sig ts m0 k n s ->
  same_rows m0 (y_mem s).
Proof.
  intros HA HD. induction HD as [n s HR|k n s n' s' HD IH HF HR].
  - apply (runs_writes sig _ ts m0 n s HA HR).
  - intros j Hj. rewrite (proj2 (runs_writes sig _ ts (y_mem s) n' s' HA HR) j Hj). apply IH. exact Hj.
Qed.

(** ** The pieces *)
Definition anyr {R} (r : R) : Prop := True.

Lemma next_writes v : 1 <= v < 2 ^ 63 -> writes (p_next_random v) (fun r => 0 <= r < v).
Proof.
  intros Hv. cbn. intros z z'.
  rewrite (Z.mod_small v) by (unfold W64; lia). destruct (Z.eqb_spec v 0); [lia|]. cbn.
  assert (0 <= z' mod v < v) by (apply Z.mod_pos_bound; lia).
  unfold int_of_u64. destruct (Z.ltb_spec (z' mod v) (2 ^ 63)); lia.
Qed.
Lemma next_writes_any v : writes (p_next_random v) anyr.
Proof. cbn. intros z z'. destruct (_ =? 0); exact I. Qed.

Lemma sub_writes row i t : W row -> writes (p_sub false row i t) anyr.
Proof. cbn. intros H x. split; [auto|exact I]. Qed.
Lemma add_true_writes row i t : writes (p_add true row i t) anyr.
Proof. cbn. intros x. split; [discriminate|exact I]. Qed.

Lemma dot_writes l1 l2 n : forall i acc, writes (p_dot l1 l2 n i acc) anyr.
Proof. induction n as [|n IH]; intros i acc; [exact I|]. cbn. intros a b. apply IH. Qed.

Lemma pairs_writes d l1 l2 n : W l1 -> W l2 -> forall i, writes (p_pairs d l1 l2 n i) anyr.
Proof.
  intros H1 H2. induction n as [|n IH]; intros i; [exact I|]. cbn -[p_sub]. intros b a.
  eapply writes_bind; [apply sub_writes; exact H1|]. intros _ _. eapply writes_bind; [apply sub_writes; exact H2|]. intros _ _. apply IH.
Qed.

Lemma sgd_writes lr dim l1 l2 f coef : W l1 -> W l2 -> writes (p_sgd lr dim l1 l2 f coef) anyr.
Proof.
  intros H1 H2. unfold p_sgd. cbn -[p_dot p_pairs p_sub].
  eapply writes_bind; [apply dot_writes|]. intros s _. cbn -[p_pairs p_sub]. intros b1 b2.
  eapply writes_bind; [apply pairs_writes; auto|]. intros _ _.
  eapply writes_bind; [apply sub_writes; auto|]. intros _ _. apply sub_writes; auto.
Qed.

Lemma ada_loop_writes d l1 l2 n : W l1 -> W l2 -> forall i, writes (p_ada_loop d l1 l2 n i) anyr.
Proof.
  intros H1 H2. induction n as [|n IH]; intros i; [exact I|]. cbn -[p_sub p_add]. intros b a.
  eapply writes_bind; [apply add_true_writes|]. intros _ _. eapply writes_bind; [apply add_true_writes|]. intros _ _. cbn -[p_sub]. intros q1 q2.
  eapply writes_bind; [apply sub_writes; auto|]. intros _ _. eapply writes_bind; [apply sub_writes; auto|]. intros _ _. apply IH.
Qed.

Lemma ada_writes lr dim l1 l2 f coef : W l1 -> W l2 -> writes (p_ada lr dim l1 l2 f coef) anyr.
Proof.
  intros H1 H2. unfold p_ada. cbn -[p_dot p_ada_loop p_sub p_add].
  eapply writes_bind; [apply dot_writes|]. intros s _. cbn -[p_ada_loop p_sub p_add]. intros b1 b2.
  eapply writes_bind; [apply ada_loop_writes; auto|]. intros _ _. cbn -[p_sub p_add]. intros q1.
  eapply writes_bind; [apply sub_writes; auto|]. intros _ _. cbn -[p_sub p_add]. intros q2.
  eapply writes_bind; [apply sub_writes; auto|]. intros _ _.
  eapply writes_bind; [apply add_true_writes|]. intros _ _. apply add_true_writes.
Qed.

Lemma items_writes ada lr dim V items :
  Forall (fun it => W (it_l1 it) /\ W (it_l1 it + V) /\ W (it_l2 it) /\ W (it_l2 it + V)) items ->
  writes (p_items ada lr dim V items) anyr.
Proof.
  induction 1 as [|it items (A & B & C & D) HF IH]; [exact I|]. cbn [p_items].
  eapply writes_bind; [|intros _ _; exact IH]. unfold p_item. destruct ada.
  - eapply writes_bind; [apply ada_writes; auto|]. intros _ _. apply ada_writes; auto.
  - eapply writes_bind; [apply sgd_writes; auto|]. intros _ _. apply sgd_writes; auto.
Qed.

Lemma win_writes {St} (body : Z -> St -> prog St) (I : St -> Prop) len pos window :
  (forall c st, 0 <= c < len -> I st -> writes (body c st) I) ->
  forall n a st, I st -> writes (p_win_loop body len pos window n a st) I.
Proof.
  intros HB n. induction n as [|n IH]; intros a st HI; [exact HI|]. cbn [p_win_loop].
  eapply writes_bind; [|intros r Hr; apply IH; exact Hr].
  destruct (a =? window); [exact HI|]. cbn zeta.
  destruct (Z.ltb_spec (pos - window + a) 0); [exact HI|]. rewrite Z.geb_leb. destruct (Z.leb_spec len (pos - window + a)); [exact HI|].
  cbn. apply HB; auto; lia.
Qed.

Lemma visit_writes samples train len : forall todo pos, 0 <= pos -> pos + Z.of_nat (length todo) = len ->
  (forall p, 0 <= p < len -> writes (train p) (@anyr unit)) -> writes (p_visit samples train pos todo) anyr.
Proof.
  induction todo as [|id todo IH]; intros pos Hp HL HT; [exact I|].
  cbn [p_visit writes]. intros x. destruct (trial samples id x) as [b| |]; [|exact I|exact I].
  eapply writes_bind; [|intros _ _; apply IH; auto; cbn [length] in *; lia].
  destruct b; [apply HT; cbn [length] in *; lia|exact I].
Qed.

Section Doc.
Variables (doc : list nat).
Hypothesis HD : forall id, In id doc -> W (Z.of_nat id).

Lemma doc_in i z : zindex (map Z.of_nat doc) i = Some z -> W z.
Proof.
  unfold zindex. destruct (i <? 0); [discriminate|]. intros E. apply nth_error_In in E. apply in_map_iff in E.
  destruct E as (id & <- & Hin). auto.
Qed.

Lemma lex_worker_writes dim items V window neg samples : 1 <= V < 2 ^ 63 -> (forall k, 0 <= k < V -> W (k + V)) ->
  writes (p_lex_worker dim items V window neg samples doc) anyr.
Proof.
  intros HV HN. unfold p_lex_worker. eapply visit_writes with (len := Z.of_nat (length doc)); [lia|lia|].
  intros p Hp. unfold p_lex_train_one. eapply writes_bind; [apply next_writes_any|]. intros del _.
  unfold p_windowed. apply win_writes; [|exact I]. intros c st Hc _. unfold p_lex_body.
  destruct (zindex (map Z.of_nat doc) p) as [w|] eqn:Ew; [|exact I]. destruct (zindex (map Z.of_nat doc) c) as [u|] eqn:Eu; [|exact I].
  apply doc_in in Ew, Eu.
  assert (HU : forall l1 l2 f, W l1 -> W l2 -> writes (p_lex_update dim l1 l2 f) anyr).
  { intros l1 l2 f H1 H2. unfold p_lex_update. eapply writes_bind; [apply dot_writes|]. intros s _. cbn -[p_pairs]. intros lr. apply pairs_writes; auto. }
  eapply writes_bind; [apply HU; auto|]. intros _ _.
  induction (Z.to_nat neg) as [|n IH]; [exact I|]. cbn [p_lex_negatives].
  eapply writes_bind; [apply next_writes; exact HV|]. intros s Hs. cbn beta in Hs.
  eapply writes_bind; [apply HU; auto|]. intros _ _. exact IH.
Qed.

(** word2vec: negative sampling writes the parameters nowhere; the change is added to the context rows. *)
Lemma src_writes c i : writes (p_src c i) anyr.
Proof. destruct c as [row|v]; cbn; [intros x; exact I|]. destruct (zindex v i); exact I. Qed.
Lemma inner_writes picked c n : forall i acc, writes (p_inner picked c n i acc) anyr.
Proof. induction n as [|n IH]; intros i acc; [exact I|]. cbn -[p_src]. intros a. eapply writes_bind; [apply src_writes|]. intros b _. apply IH. Qed.
Lemma apply_writes picked c g n : forall i tmp, writes (p_apply picked c g n i tmp) anyr.
Proof.
  induction n as [|n IH]; intros i tmp; [exact I|]. cbn -[p_src]. intros r. destruct (zindex tmp i); [|exact I]. cbn -[p_src]. intros r'.
  eapply writes_bind; [apply src_writes|]. intros b _. cbn. split; [discriminate|apply IH].
Qed.
Lemma ns_step_writes lr dim c label picked tmp : writes (p_ns_step lr dim c label picked tmp) anyr.
Proof.
  unfold p_ns_step. cbn -[p_inner p_apply p_grad]. eapply writes_bind; [apply inner_writes|]. intros y _.
  eapply writes_bind with (P := anyr); [|intros g _; apply apply_writes].
  unfold p_grad. destruct (fle _ _); [exact I|]. destruct (fge _ _); [exact I|]. cbn. intros; exact I.
Qed.
Lemma ns_negatives_writes lr dim c V id n : forall tmp, writes (p_ns_negatives lr dim c V id n tmp) anyr.
Proof.
  induction n as [|n IH]; intros tmp; [exact I|]. cbn [p_ns_negatives]. eapply writes_bind; [apply next_writes_any|]. intros k _.
  destruct (id =? k); [apply IH|]. eapply writes_bind; [apply ns_step_writes|]. intros t _. apply IH.
Qed.
Lemma ns_optim_writes neg lr dim c V id tmp : writes (p_ns_optim neg lr dim c V id tmp) anyr.
Proof.
  unfold p_ns_optim. destruct (_ <=? _); [exact I|]. eapply writes_bind; [apply ns_step_writes|]. intros t _. apply ns_negatives_writes.
Qed.
Lemma add_row_writes row n : W row -> forall i tmp, writes (p_add_row row n i tmp) anyr.
Proof.
  intros H. induction n as [|n IH]; intros i tmp; [exact I|]. cbn. intros x. destruct (zindex tmp i); [|exact I]. cbn. auto.
Qed.
Lemma collect_writes row n : forall i agg, writes (p_collect row n i agg) anyr.
Proof. induction n as [|n IH]; intros i agg; [exact I|]. cbn. destruct (zindex agg i); [|exact I]. cbn. intros x. apply IH. Qed.

Lemma w2v_worker_writes cbow neg dim V window samples agg tmp :
  writes (p_w2v_worker cbow neg dim V window samples agg tmp doc) anyr.
Proof.
  unfold p_w2v_worker. eapply visit_writes with (len := Z.of_nat (length doc)); [lia|lia|].
  intros p Hp. cbn [writes]. intros lr. destruct cbow.
  - unfold p_cb_train_one. cbv zeta. eapply writes_bind with (P := anyr).
    { unfold p_dowith. eapply writes_bind; [apply next_writes_any|]. intros del _. unfold p_windowed. apply win_writes; [|exact I].
      intros c v Hc _. unfold p_cb_aggregate. destruct (zindex _ _); [|exact I]. cbn [writes]. apply collect_writes. }
    intros agg' _. destruct (zindex _ _) as [w|]; [|exact I].
    eapply writes_bind; [apply ns_optim_writes|]. intros tmp' _. eapply writes_bind with (P := anyr); [|intros; exact I].
    unfold p_dowith. eapply writes_bind; [apply next_writes_any|]. intros del _. unfold p_windowed. apply win_writes; [|exact I].
    intros c v Hc _. unfold p_cb_update. destruct (zindex _ _) as [u|] eqn:Eu; [|exact I]. cbn [writes].
    eapply writes_bind; [apply add_row_writes; eapply doc_in; exact Eu|]. intros _ _. exact I.
  - unfold p_sg_train_one. eapply writes_bind; [apply next_writes_any|]. intros del _. eapply writes_bind with (P := anyr); [|intros; exact I].
    unfold p_windowed. apply win_writes; [|exact I]. intros c v Hc _. unfold p_sg_body.
    destruct (zindex (map Z.of_nat doc) c) as [u|] eqn:Eu; [|exact I]. destruct (zindex (map Z.of_nat doc) p) as [w|]; [|exact I]. cbn [writes].
    eapply writes_bind; [apply ns_optim_writes|]. intros tmp' _.
    eapply writes_bind; [apply add_row_writes; eapply doc_in; exact Eu|]. intros _ _. exact I.
Qed.
End Doc.
End Rows.
