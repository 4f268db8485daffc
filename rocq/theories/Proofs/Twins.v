(** Goroutines doing the same work in lockstep have the effect of one of them. *)
From Coq Require Import Lia.
From Verif.Lib Require Import Go F64 ListFacts Tac.
From Verif.Model Require Import ModelUtil Matrix Cells Race.
From Verif.Spec Require Import Race.
From Verif.Proofs Require Import Matrix ModelUtil RaceSeq.
Local Open Scope Z_scope.

Lemma upd_same {A} (l : list A) : forall i x, upd (upd l i x) i x = upd l i x.
Proof. induction l as [|a l IH]; intros [|i] x; cbn; auto. now rewrite IH. Qed.

Lemma store_slice m id r r' : mat_slice m id = Ret r -> length r' = length r -> mat_slice (mat_store m id r') id = Ret r' /\ mat_store (mat_store m id r') id r' = mat_store m id r'.
Proof.
  unfold mat_slice, mat_store, start_index, slice_ok. cbn [m_array m_row m_col]. intros H HL.
  destruct (_ && _) eqn:E in H; [|discriminate]. apply andb_true_iff in E as (E & E3). apply andb_true_iff in E as (E1 & E2).
  apply Z.leb_le in E1, E2, E3. injection H as <-. rewrite firstn_length, skipn_length in HL.
  set (s := Z.to_nat (id * m_col m)) in *. assert (Lr : length r' = Z.to_nat (m_col m)) by lia.
  assert (LS : (s + length r' <= length (m_array m))%nat) by lia.
  assert (L1 : length (firstn s (m_array m)) = s) by (rewrite firstn_length; lia).
  assert (K1 : firstn s (firstn s (m_array m) ++ r' ++ skipn (s + length r') (m_array m)) = firstn s (m_array m)).
  { rewrite firstn_app, L1, Nat.sub_diag, firstn_firstn, Nat.min_id. cbn. apply app_nil_r. }
  assert (K2 : skipn s (firstn s (m_array m) ++ r' ++ skipn (s + length r') (m_array m)) = r' ++ skipn (s + length r') (m_array m)).
  { rewrite skipn_app, L1, Nat.sub_diag, skipn_all2 by lia. reflexivity. }
  split.
  - rewrite splice_length by lia. replace ((0 <=? id * m_col m) && (id * m_col m <=? id * m_col m + m_col m) && (id * m_col m + m_col m <=? Z.of_nat (length (m_array m)))) with true.
    + f_equal. rewrite K2, firstn_app. rewrite <- Lr, Nat.sub_diag, firstn_all. cbn. apply app_nil_r.
    + symmetry. rewrite !andb_true_iff, !Z.leb_le. lia.
  - f_equal. rewrite K1. f_equal. f_equal.
    rewrite (Word2vec.skipn_add s (length r')), K2. rewrite skipn_app, skipn_all, Nat.sub_diag. reflexivity.
Qed.

Lemma set_cell_idem m id i x m' : set_cell m id i x = Ret m' -> set_cell m' id i x = Ret m'.
Proof.
  unfold set_cell. destruct (mat_slice m id) as [r|e|] eqn:E; cbn [obind]; try discriminate.
  destruct (zindex r i) as [y|] eqn:EI; [|discriminate]. intros H. injection H as <-.
  destruct (store_slice m id r (upd r (Z.to_nat i) x) E) as (E1 & E2); [apply upd_length|]. rewrite E1. cbn [obind].
  unfold zindex in *. destruct (i <? 0); [discriminate|].
  assert (Hi : (Z.to_nat i < length r)%nat) by (apply nth_error_Some; congruence).
  destruct (nth_error (upd r (Z.to_nat i) x) (Z.to_nat i)) as [z|] eqn:EZ; [|apply nth_error_None in EZ; rewrite upd_length in EZ; lia].
  rewrite upd_same, E2. reflexivity.
Qed.

Section Twins.
Variables (sig : f64 -> outcome f64) (rand : nat -> f64).
Context {R : Type}.

Lemma runs_trans n1 n2 (a b c : system R) : sys_runs sig n1 a b -> sys_runs sig n2 b c -> sys_runs sig (n1 + n2) a c.
Proof.
  intros H1 H2. induction H2 as [b|n b b' b'' H2 IH HS|n b b' b'' H2 IH HE]; [now rewrite Nat.add_0_r|rewrite Nat.add_succ_r; econstructor; eauto|econstructor; eauto].
Qed.

(** If the step of [p] in [m] leads to [m'], [q], and again to [m'], [q] when repeated in [m'], all
    copies can take it. *)
Lemma all_step m m' x (p q : prog R) : pexec sig x m p = Ret (m', q) -> pexec sig x m' p = Ret (m', q) -> pdone p = false ->
  forall k j m1, (m1 = m \/ m1 = m') -> sys_runs sig (S k) (Sys m1 (repeat q j ++ repeat p (S k))) (Sys m' (repeat q (j + S k))).
Proof.
  intros H1 H2 HD. induction k as [|k IH]; intros j m1 Hm1.
  - assert (EX : pexec sig x m1 p = Ret (m', q)) by (destruct Hm1 as [-> | ->]; auto).
    eapply y_step; [apply y_start|]. pose proof (y_thread sig m1 (repeat q j ++ repeat p 1) j p x) as ST. rewrite EX in ST. cbn [obind] in ST.
    assert (EU : upd (repeat q j ++ repeat p 1) j q = repeat q (j + 1)).
    { clear. cbn [repeat]. induction j; cbn; [reflexivity|now rewrite IHj]. }
    rewrite EU in ST. apply ST; auto. rewrite nth_error_app2, repeat_length, Nat.sub_diag by (rewrite repeat_length; lia). reflexivity.
  - assert (EX : pexec sig x m1 p = Ret (m', q)) by (destruct Hm1 as [-> | ->]; auto).
    change (S (S k)) with (1 + S k)%nat at 1. eapply runs_trans.
    + eapply y_step; [apply y_start|]. pose proof (y_thread sig m1 (repeat q j ++ repeat p (S (S k))) j p x) as ST. rewrite EX in ST. cbn [obind] in ST.
      apply ST; auto. rewrite nth_error_app2, repeat_length, Nat.sub_diag by (rewrite repeat_length; lia). reflexivity.
    + assert (EU : upd (repeat q j ++ repeat p (S (S k))) j q = repeat q (S j) ++ repeat p (S k)).
      { clear. induction j; cbn; [reflexivity|]. cbn in IHj. now rewrite IHj. }
      rewrite EU. replace (j + S (S k))%nat with (S j + S k)%nat by lia. apply IH. auto.
Qed.

Lemma twins_lemma g : (1 <= g)%nat -> forall (p : prog R) k m k' m' r, prun sig rand p k m = Ret (k', m', r) ->
  exists n, sys_runs sig n (Sys m (repeat p g)) (Sys m' (repeat (PRet r) g)).
Proof.
  intros Hg. destruct g as [|g]; [lia|].
  assert (GO : forall m m1 x (p q : prog R) m' r, pexec sig x m p = Ret (m1, q) -> pexec sig x m1 p = Ret (m1, q) -> pdone p = false ->
    (exists n, sys_runs sig n (Sys m1 (repeat q (S g))) (Sys m' (repeat (PRet r) (S g)))) ->
    exists n, sys_runs sig n (Sys m (repeat p (S g))) (Sys m' (repeat (PRet r) (S g)))).
  { intros m m1 x p q m' r E1 E2 HD (n & HR). eexists. eapply runs_trans; [|exact HR].
    pose proof (all_step m m1 x p q E1 E2 HD g 0 m (or_introl eq_refl)) as H. exact H. }
  induction p as [r0| |b row q IH|b row i q IH|b row i x q IH|q IH|z q IH|q IH|q IH|y q IH]; intros k m k' m' r H; cbn [prun] in H.
  - injection H as <- <- <-. exists 0%nat. apply y_start.
  - discriminate.
  - destruct (mat_slice (sm_get m b) row) as [v|e|] eqn:E; cbn [obind] in H; try discriminate.
    eapply (GO m m fzero); [cbn; rewrite E; reflexivity|cbn; rewrite E; reflexivity|reflexivity|eauto].
  - destruct (cell (sm_get m b) row i) as [v|e|] eqn:E; cbn [obind] in H; try discriminate.
    eapply (GO m m fzero); [cbn; rewrite E; reflexivity|cbn; rewrite E; reflexivity|reflexivity|eauto].
  - destruct (set_cell (sm_get m b) row i x) as [a|e|] eqn:E; cbn [obind] in H; try discriminate.
    eapply (GO m (sm_set m b a) fzero); [cbn; rewrite E; reflexivity| |reflexivity|eauto].
    cbn. assert (EG : sm_get (sm_set m b a) b = a) by (destruct b; reflexivity). rewrite EG, (set_cell_idem _ _ _ _ _ E). cbn. destruct b; reflexivity.
  - eapply (GO m m fzero); [reflexivity|reflexivity|reflexivity|eauto].
  - eapply (GO m _ fzero); [reflexivity|reflexivity|reflexivity|eauto].
  - eapply (GO m m fzero); [reflexivity|reflexivity|reflexivity|eauto].
  - eapply (GO m m (rand k)); [reflexivity|reflexivity|reflexivity|eauto].
  - destruct (sig y) as [v|e|] eqn:E; cbn [obind] in H; try discriminate.
    eapply (GO m m fzero); [cbn; rewrite E; reflexivity|cbn; rewrite E; reflexivity|reflexivity|eauto].
Qed.
End Twins.

Lemma draws_prun sig rand : forall bounds k m, Forall (fun v => 1 <= v < 2 ^ 63) bounds ->
  prun sig rand (draws bounds) k m = Ret (k, SMem (sm_p m) (sm_g m) (snd (draws_alone bounds (sm_next m))) (sm_lr m), fst (draws_alone bounds (sm_next m))).
Proof.
  induction bounds as [|v bounds IH]; intros k m HF; [destruct m; reflexivity|]. inversion HF as [|? ? Hv HF']; subst.
  cbn [draws draws_alone]. rewrite prun_bind, prun_next.
  destruct (Word2vec.draw_next (sm_next m) v Hv) as (E & Hd). rewrite E. cbn [obind]. rewrite prun_bind, IH by auto. cbn [sm_p sm_g sm_next sm_lr obind prun].
  destruct (draws_alone bounds (lcg (sm_next m))) as [l n']. cbn [fst snd]. unfold Training.draw. cbn [Nat.iter].
  rewrite Z2Nat.id by (apply Z.mod_pos_bound; lia). reflexivity.
Qed.
