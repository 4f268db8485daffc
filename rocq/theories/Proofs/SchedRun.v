From Coq Require Import Permutation.
From Verif.Lib Require Import Go ListFacts Tac.
From Verif.Model Require Import Sched.
From Verif.Spec Require Import Sched Slices.
From Verif.Proofs Require Import Sched.

Section Run.
Context {A : Type}.
Implicit Types (s : st A) (c : cfg).

Definition nofail (x : source A) : Prop := match x with Chan _ WillFail _ => False | _ => True end.

Ltac cases HS := destruct HS as
    [s d rest Hc Hm Hs|s Hc Hm Hs|s d u e buf Hc Hs Hl|s buf Hc Hs|s u e d buf Hc Hm Hs|s u e d Hc Hm Hs Hg|s u Hc Hm Hs
    |s Hc Hm Hw|s i d Hc Hi Hl|s i x t Hc (d & Hi) Hk|s i x t Hc (d & Hi) Hk Hp|s i x t Hc (d & Hi) Hp|s i x t Hc (d & Hi) Hk
    |s i t n Hc (d & Hi) Ht Ho|s i t Hc (d & Hi) Ht|s i Hc (d & Hi) Hw|s i Hc (d & Hi) Hw|s i Hc (d & Hi)|s n Hc Ho|s n Hc Ho Ht].

Lemma step_nofail c s s' : step c s s' -> nofail (src s) -> nofail (src s').
Proof. intros HS. cases HS; cbn [src]; try rewrite Hs; cbn; auto. Qed.

Lemma step_mdone c s s' : step c s s' -> main s = MDone -> main s' = MDone.
Proof. intros HS. cases HS; cbn [main]; congruence. Qed.

(** A failed producer: the main goroutine waits for ever in [range in]. *)
Lemma fail_inv c s s' : step c s s' ->
  main s = MLoop /\ (exists u b, src s = Chan u WillFail b) -> main s' = MLoop /\ (exists u b, src s' = Chan u WillFail b).
Proof.
  intros HS (Hm0 & u0 & b0 & Hs0). cases HS; cbn [main src]; rewrite Hs0 in *; try congruence; split; eauto; try congruence.
  - injection Hs as -> -> ->. eauto.
  - injection Hs as -> -> ->. eauto.
  - injection Hs as -> -> ->. eauto.
Qed.

Lemma fail_lemma c chunks n s : steps c n (init c (Chan chunks WillFail [])) s -> main s = MLoop.
Proof.
  intros H. remember (init c (Chan chunks WillFail [])) as s0 eqn:E.
  assert (H0 : main s0 = MLoop /\ exists u b, src s0 = Chan u WillFail b) by (subst; split; cbn; eauto).
  clear E. assert (H1 : main s = MLoop /\ exists u b, src s = Chan u WillFail b); [|tauto].
  induction H; auto. eapply fail_inv; eauto.
Qed.

(** No goroutine passes a semaphore of size 0. *)
Definition zero_inv s : Prop := Forall (fun k => w_at k = WNew) (wks s) /\ log s = [].

Lemma zero_step c s s' : c_g c = 0 -> step c s s' -> zero_inv s -> zero_inv s'.
Proof.
  intros H0 HS (HW & HL).
  assert (NO : forall i d w, nth_error (wks s) i = Some (Worker d w) -> w = WNew).
  { intros i d w Hi. rewrite Forall_forall in HW. apply (HW _ (nth_error_In _ _ Hi)). }
  cases HS; try (specialize (NO _ _ _ Hi); discriminate); unfold zero_inv; cbn [wks log]; auto; try lia.
  - split; auto. apply Forall_app; auto.
  - split; auto. apply Forall_app; auto.
  - split; auto. apply Forall_app; auto.
Qed.

Lemma zero_lemma c x n s : c_g c = 0 -> (forall u b, x = Chan u Closed b -> u = []) ->
  steps c n (init c x) s -> zero_inv s /\ (pending x <> [] -> main s <> MDone).
Proof.
  intros H0 Hx H. pose proof (steps_inv c _ _ _ _ (init_inv c x Hx) H) as I.
  assert (Z : zero_inv s).
  { remember (init c x) as s0 eqn:E. assert (Z0 : zero_inv s0) by (subst; split; [constructor|reflexivity]).
    clear - H0 H Z0. induction H; auto. eapply zero_step; eauto. }
  split; [exact Z|]. intros Hp Hm. destruct Z as (Z & _).
  destruct (done_all _ _ _ I Hm) as (Hpe & _). pose proof (i_chunks _ _ _ I) as Hch. rewrite Hpe, app_nil_r in Hch.
  pose proof (i_done _ _ _ I Hm) as Hw. rewrite (i_wg _ _ _ I) in Hw.
  destruct (wks s) as [|[d w] ws]; [cbn in Hch; congruence|]. inversion Z; subst. cbn [w_at] in *. subst. discriminate Hw.
Qed.

(** ** All iterations *)
Definition run_inv c iter (mk : nat -> source A) (l : list (st A)) : Prop :=
  1 <= length l <= iter /\
  (forall j s, nth_error l j = Some s -> inv c (pending (mk j)) s /\ nofail (src s)) /\
  (forall j s, nth_error l j = Some s -> S j < length l -> main s = MDone).


Lemma nth_mid {X} (l1 l2 : list X) x y j z : nth_error (l1 ++ y :: l2) j = Some z ->
  (j = length l1 /\ z = y) \/ (j <> length l1 /\ nth_error (l1 ++ x :: l2) j = Some z).
Proof.
  intros H. destruct (Nat.lt_trichotomy j (length l1)) as [Hj|[->|Hj]].
  - right. split; [lia|]. rewrite nth_error_app1 in * by auto. exact H.
  - left. split; auto. rewrite nth_error_app2, Nat.sub_diag in H by auto. injection H as ->. reflexivity.
  - right. split; [lia|]. rewrite nth_error_app2 in * by lia. destruct (j - length l1) eqn:E; [lia|]. exact H.
Qed.

Lemma nth_len {X} (l1 l2 : list X) x : nth_error (l1 ++ x :: l2) (length l1) = Some x.
Proof. rewrite nth_error_app2, Nat.sub_diag by auto. reflexivity. Qed.

Lemma run_step_inv c iter mk l l' :
  (forall j, (forall u b, mk j = Chan u Closed b -> u = []) /\ nofail (mk j)) ->
  run_inv c iter mk l -> run_step c iter mk l l' -> run_inv c iter mk l'.
Proof.
  intros Hmk (HL & HI & HD) HS. destruct HS as [l1 s s' l2 HS|l s Hm Hlt].
  - assert (EL : length (l1 ++ s' :: l2) = length (l1 ++ s :: l2)) by (rewrite !app_length; reflexivity).
    split; [rewrite EL; exact HL|]. split; intros j z Hj.
    + destruct (nth_mid l1 l2 s s' j z Hj) as [(-> & ->)|(_ & Hj')]; [|apply HI; exact Hj'].
      destruct (HI _ _ (nth_len l1 l2 s)) as (I & N). split; [eapply step_inv; eauto|eapply step_nofail; eauto].
    + rewrite EL. intros Hjl. destruct (nth_mid l1 l2 s s' j z Hj) as [(-> & ->)|(_ & Hj')]; [|eapply HD; eauto].
      eapply step_mdone; [exact HS|]. eapply HD; [apply nth_len|exact Hjl].
  - rewrite app_assoc. set (l0 := l ++ [s]) in *. split; [rewrite app_length; cbn [length]; lia|].
    split; intros j z Hj.
    + destruct (Nat.lt_ge_cases j (length l0)) as [Hl|Hl].
      * rewrite nth_error_app1 in Hj by auto. apply HI; auto.
      * rewrite nth_error_app2 in Hj by auto. destruct (j - length l0) as [|m] eqn:Em; [|destruct m; discriminate].
        assert (j = length l0) by lia. subst j. injection Hj as <-. split; [apply init_inv, Hmk|apply Hmk].
    + rewrite app_length. cbn [length]. intros Hjl.
      destruct (Nat.lt_ge_cases (S j) (length l0)) as [Hl|Hl].
      * rewrite nth_error_app1 in Hj by lia. eapply HD; eauto.
      * assert (j = length l) by (unfold l0 in *; rewrite app_length in *; cbn [length] in *; lia). subst j.
        rewrite nth_error_app1 in Hj by (unfold l0; rewrite app_length; cbn; lia).
        unfold l0 in Hj. rewrite nth_len in Hj. congruence.
Qed.

Definition todo_mu c iter (mk : nat -> source A) (k : nat) : nat :=
  sum (fun j => S (mu (init c (mk j)))) (seq k (iter - k)).

Lemma run_step_mu c iter mk l l' : run_step c iter mk l l' ->
  sum mu l' + todo_mu c iter mk (length l') < sum mu l + todo_mu c iter mk (length l).
Proof.
  intros HS. destruct HS as [l1 s s' l2 HS|l s Hm Hlt].
  - apply step_mu in HS. rewrite !app_length, !sum_app. cbn [sum length]. lia.
  - rewrite app_assoc. set (l0 := l ++ [s]) in *. rewrite sum_app, app_length. cbn [sum length].
    unfold todo_mu. replace (iter - length l0) with (S (iter - (length l0 + 1))) by lia.
    cbn [seq sum]. rewrite Nat.add_1_r. lia.
Qed.

Lemma run_progress c iter mk l : run_inv c iter mk l -> 0 < c_g c ->
  (forall l', ~ run_step c iter mk l l') -> length l = iter /\ Forall finished l.
Proof.
  intros (HL & HI & HD) Hg Hst.
  assert (HF : Forall finished l).
  { apply Forall_forall. intros s Hin. apply In_nth_error in Hin. destruct Hin as (j & Hj).
    destruct (HI j s Hj) as (I & N).
    destruct (progress c _ s I Hg) as [F|(s' & HS)]; [intros u b E; rewrite E in N; exact N|exact F|].
    exfalso. destruct (nth_error_split l j Hj) as (l1 & l2 & -> & _). apply (Hst (l1 ++ s' :: l2)). constructor; exact HS. }
  split; [|exact HF].
  destruct (Nat.lt_ge_cases (length l) iter) as [Hl|]; [|lia]. exfalso.
  destruct (exists_last (l := l)) as (l0 & s & E); [destruct l; cbn in *; [lia|discriminate]|]. subst l.
  apply Forall_app in HF. destruct HF as (_ & HF). inversion HF as [|? ? (Hm & _) _]; subst.
  eapply Hst. apply r_next; auto.
Qed.

Lemma run_lemma c iter mk n l :
  (forall j, (forall u b, mk j = Chan u Closed b -> u = []) /\ nofail (mk j)) -> 1 <= iter ->
  run_steps c iter mk n [init c (mk 0)] l ->
  run_inv c iter mk l /\ n <= sum (fun j => S (mu (init c (mk j)))) (seq 0 iter).
Proof.
  intros Hmk Hit H.
  assert (G : run_inv c iter mk l /\ n + sum mu l + todo_mu c iter mk (length l) <= sum (fun j => S (mu (init c (mk j)))) (seq 0 iter)).
  { remember [init c (mk 0)] as l0 eqn:E.
    induction H as [l|n l l' l'' HR IH HS].
    - subst l. split.
      + split; [cbn; lia|]. split.
        * intros [|j] s Hj; [|destruct j; discriminate]. injection Hj as <-. split; [apply init_inv, Hmk|apply Hmk].
        * intros j s _ Hj. cbn in Hj. lia.
      + unfold todo_mu. destruct iter as [|iter]; [lia|]. cbn [length seq sum Nat.sub]. rewrite Nat.sub_0_r. lia.
    - destruct (IH E) as (I & L). split; [eapply run_step_inv; eauto|]. apply run_step_mu in HS. lia. }
  split; [tauto|]. lia.
Qed.

(** ** Statements used by the properties *)
Lemma steps_snoc c n s s' s'' : step c s s' -> steps c n s' s'' -> steps c (S n) s s''.
Proof.
  intros HS H. induction H as [|n s1 s2 s3 _ IH H].
  - eapply steps_S; [constructor|exact HS].
  - eapply steps_S; [apply IH; exact HS|exact H].
Qed.

Lemma completes c x : 0 < c_g c -> (forall u b, x = Chan u Closed b -> u = []) -> nofail x ->
  exists n s, steps c n (init c x) s /\ finished s.
Proof.
  intros Hg Hx Hn.
  assert (G : forall m s, mu s <= m -> inv c (pending x) s -> nofail (src s) -> exists n s', steps c n s s' /\ finished s').
  { induction m as [|m IH]; intros s Hm I N.
    - exfalso. unfold mu in Hm. rewrite (i_crash _ _ _ I) in Hm. lia.
    - destruct (progress c _ s I Hg) as [F|(s1 & HS)].
      + intros u b E. rewrite E in N. exact N.
      + exists 0, s. split; [constructor|exact F].
      + pose proof (step_mu _ _ _ HS). destruct (IH s1) as (n & s2 & H2 & F); [lia|eapply step_inv; eauto|eapply step_nofail; eauto|].
        exists (S n), s2. split; [eapply steps_snoc; eauto|exact F]. }
  eapply G; [reflexivity|apply init_inv; exact Hx|exact Hn].
Qed.

Lemma sum_const {X} (k : nat) (l : list X) : sum (fun _ => k) l = length l * k.
Proof. induction l as [|x l IH]; cbn [sum length]; [reflexivity|]. rewrite IH. lia. Qed.

Lemma sum_len a (l : list (list A)) : sum (fun d => 4 * length d + a) l = 4 * length (concat l) + a * length l.
Proof. induction l as [|x l IH]; cbn [sum length concat]; [lia|]. rewrite IH, app_length. lia. Qed.

Definition run_ok c iter (chunks : list (list A)) (bound n : nat) (l : list (st A)) mk : Prop :=
  n <= bound /\
  Forall (fun s => crashed s = false) l /\
  ((forall l', ~ run_step c iter mk l l') -> length l = iter /\ Forall finished l) /\
  Forall (fun s =>
    (exists rest, Permutation (map snd (log s) ++ rest) (concat chunks)) /\
    (main s = MDone ->
       Permutation (map snd (log s)) (concat chunks) /\
       (forall i d, nth_error chunks i = Some d -> by_worker i (log s) = d) /\
       ticks (obs s) = length (concat chunks))) l.

Lemma run_ok_lemma c iter x n l : 0 < c_g c -> 1 <= iter ->
  (forall u b, x = Chan u Closed b -> u = []) -> nofail x ->
  run_steps c iter (fun _ => x) n [init c x] l ->
  run_ok c iter (pending x) (iter * S (mu (init c x))) n l (fun _ => x).
Proof.
  intros Hg Hi Hx Hn H. destruct (run_lemma c iter (fun _ => x) n l (fun _ => conj Hx Hn) Hi H) as (I & L).
  rewrite sum_const, seq_length in L. split; [exact L|].
  assert (HI : forall s, In s l -> inv c (pending x) s).
  { intros s Hin. apply In_nth_error in Hin. destruct Hin as (j & Hj). apply (proj1 (proj2 I) j s Hj). }
  split; [apply Forall_forall; intros s Hin; apply (i_crash _ _ _ (HI s Hin))|].
  split; [intros Hs; eapply run_progress; eauto|].
  apply Forall_forall. intros s Hin. specialize (HI s Hin). split.
  - eexists. apply (log_perm _ _ _ HI).
  - intros Hm. destruct (done_lemma _ _ _ HI Hm) as (_ & P1 & P2 & P3). auto.
Qed.

Lemma mem_run_lemma c iter (chunks : list (list A)) n l : 0 < c_g c -> 1 <= iter ->
  run_steps c iter (fun _ => Mem chunks) n [init c (Mem chunks)] l ->
  run_ok c iter chunks (iter * (4 * length (concat chunks) + 4 * length chunks + 5)) n l (fun _ => Mem chunks).
Proof.
  intros Hg Hi H. pose proof (run_ok_lemma c iter (Mem chunks) n l Hg Hi ltac:(discriminate) I H) as R.
  cbn [pending] in R. replace (4 * length (concat chunks) + 4 * length chunks + 5) with (S (mu (init c (Mem chunks)))); [exact R|].
  unfold mu. cbn [init src main wks obs crashed src_mu sum]. rewrite sum_len. lia.
Qed.

Lemma chan_run_lemma c iter (chunks : list (list A)) n l : 0 < c_g c -> 1 <= iter ->
  run_steps c iter (fun _ => Chan chunks WillClose []) n [init c (Chan chunks WillClose [])] l ->
  run_ok c iter chunks (iter * (4 * length (concat chunks) + 5 * length chunks + 6)) n l (fun _ => Chan chunks WillClose []).
Proof.
  intros Hg Hi H. pose proof (run_ok_lemma c iter (Chan chunks WillClose []) n l Hg Hi ltac:(discriminate) I H) as R.
  cbn [pending app] in R.
  replace (4 * length (concat chunks) + 5 * length chunks + 6) with (S (mu (init c (Chan chunks WillClose [])))); [exact R|].
  unfold mu. cbn [init src main wks obs crashed src_mu sum]. rewrite sum_len. lia.
Qed.

Lemma resources_lemma c x n s : (forall u b, x = Chan u Closed b -> u = []) -> steps c n (init c x) s ->
  count holds_sem s <= c_g c /\ count holds_sem s = sem s /\
  (forall i y t, at_w s i (WRun (y :: t)) -> c_pool c = true -> 0 < pool s) /\
  (forall i y t, at_w s i (WHold y t) -> pool s < c_g c) /\
  pool s + count in_train s = c_g c.
Proof.
  intros Hx H. pose proof (steps_inv c _ _ _ _ (init_inv c x Hx) H) as I.
  pose proof (i_sem _ _ _ I). pose proof (i_semle _ _ _ I). pose proof (i_pool _ _ _ I).
  unfold count. unfold cnt in *. split; [lia|]. split; [lia|]. split; [|split; [|exact H2]].
  - intros i y t (d & Hi) Hp.
    pose proof (cnt_upd holds_sem _ _ _ d _ WEnd Hi) as H4. pose proof (cnt_upd in_train _ _ _ d _ WEnd Hi) as H5.
    cbn [holds_sem in_train b2n] in H4, H5.
    pose proof (cnt_le in_train holds_sem (fun w => ltac:(destruct w; cbn; auto)) (upd (wks s) i (Worker d WEnd))).
    unfold cnt in *. lia.
  - intros i y t (d & Hi). pose proof (cnt_ge in_train _ _ _ _ Hi eq_refl). unfold cnt in *. lia.
Qed.

Lemma step_mem c s s' : step c s s' -> (exists r, src s = Mem r) -> exists r, src s' = Mem r.
Proof. intros HS (r & Er). cases HS; cbn [src]; eauto; congruence. Qed.

Lemma empty_mem c n s : steps c n (init c (Mem (A := A) [])) s -> wks s = [] /\ log s = [] /\ crashed s = false /\
  ((forall s', ~ step c s s') -> finished s).
Proof.
  intros H. pose proof (steps_inv c _ _ _ _ (init_inv c (Mem []) ltac:(discriminate)) H) as I.
  pose proof (i_chunks _ _ _ I) as Hch. cbn [pending] in Hch. apply app_eq_nil in Hch. destruct Hch as (Hw & Hp).
  apply map_eq_nil in Hw. split; [exact Hw|]. split.
  { pose proof (i_idx _ _ _ I) as Hi. rewrite Hw in Hi. destruct (log s); [reflexivity|]. inversion Hi. cbn in *. lia. }
  split; [apply (i_crash _ _ _ I)|]. intros Hst.
  pose proof (i_crash _ _ _ I) as Hc.
  assert (HM : exists r, src s = Mem r).
  { clear - H. remember (init c (Mem [])) as s0 eqn:E. assert (H0 : exists r, src s0 = Mem r) by (subst; cbn; eauto).
    clear E. induction H as [|n s s' s'' _ IH HS]; auto. eapply step_mem; [exact HS|auto]. }
  destruct HM as (r & Er). rewrite Er in Hp. cbn in Hp. subst r.
  destruct (main s) eqn:Hm.
  - exfalso. eapply Hst. eapply s_mem_end; eauto.
  - exfalso. eapply Hst. eapply s_wait; eauto. rewrite (i_wg _ _ _ I), Hw. reflexivity.
  - destruct (obs s) as [k|k|k] eqn:Ho.
    + exfalso. eapply Hst. eapply s_obs_end; eauto. apply (i_closed _ _ _ I); auto.
    + exfalso. eapply Hst. eapply s_obs; eauto.
    + split; [exact Hm|]. split; [exists k; exact Ho|]. rewrite Hw. constructor.
Qed.
End Run.
