(** * C36-C39, C72: goroutines of the training loops *)
From Coq Require Import Permutation.
From Verif.Lib Require Import Go.
From Verif.Model Require Import ModelUtil Reader Corpus Sched.
From Verif.Spec Require Import Slices Sched.
From Verif.Proofs Require ModelUtil SchedRun.
Local Open Scope nat_scope.

(** What holds of every execution of [n] steps of the iteration loop that reached [l] (the states
    of the iterations started so far): the number of steps is bounded, no Go panic, a state
    without successor is the end of all iterations with all goroutines ended; at any time nothing
    was handled twice; and when the main goroutine has left an iteration, every item was handled
    exactly once in it, each worker having handled its own slice in order, and the observer
    received one tick per item. *)
Definition good_run {A} (c : cfg) (iter : nat) (mk : nat -> source A) (chunks : list (list A))
  (bound n : nat) (l : list (st A)) : Prop :=
  n <= bound /\
  Forall (fun s => crashed s = false) l /\
  ((forall l', ~ run_step c iter mk l l') -> length l = iter /\ Forall finished l) /\
  Forall (fun s =>
    (exists rest, Permutation (map snd (log s) ++ rest) (concat chunks)) /\
    (main s = MDone ->
       Permutation (map snd (log s)) (concat chunks) /\
       (forall i d, nth_error chunks i = Some d -> by_worker i (log s) = d) /\
       ticks (obs s) = length (concat chunks))) l.

(** C36. In-memory training of [doc] (for word2vec and lexvec the filtered document, for glove the
    items) by [g] goroutines, [iter] iterations. *)
Theorem C36_memory_training : forall (A : Type) (doc : list A) (g iter : nat) pooled skips n l,
  1 <= g -> 1 <= iter -> (Z.of_nat (length doc) + Z.of_nat g <= 2 ^ 53)%Z ->
  exists bounds, index_per_thread (Z.of_nat g) (Z.of_nat (length doc)) = Ret bounds /\
  let chunks := slices doc bounds in
  let c := Cfg g pooled skips in
  concat chunks = doc /\ length chunks = g /\
  (run_steps c iter (fun _ => Mem chunks) n [init c (Mem chunks)] l ->
   good_run c iter (fun _ => Mem chunks) chunks (iter * (4 * length doc + 4 * g + 5)) n l).
Proof.
  intros A doc g iter pooled skips n l Hg Hi Hd.
  destruct (ModelUtil.index_per_thread_lemma (Z.of_nat g) (Z.of_nat (length doc))) as (bounds & E & _ & _ & _ & _ & HS);
    [now apply (Nat2Z.inj_le 1)|apply Nat2Z.is_nonneg|exact Hd|].
  exists bounds. split; [exact E|]. destruct (HS A doc eq_refl) as (HL & HC). cbv zeta. rewrite Nat2Z.id in HL.
  split; [exact HC|]. split; [exact HL|]. intros H.
  pose proof (SchedRun.mem_run_lemma (Cfg g pooled skips) iter (slices doc bounds) n l Hg Hi H) as R.
  rewrite HL in R. unfold good_run. unfold SchedRun.run_ok in R. rewrite HC in R |- *. exact R.
Qed.
Print Assumptions C36_memory_training.

(** Some execution does finish (so the statement above is not about an empty set). *)
Theorem C36_some_execution_finishes : forall (A : Type) c (chunks : list (list A)), 0 < c_g c ->
  exists n s, steps c n (init c (Mem chunks)) s /\ finished s.
Proof. intros A c chunks Hg. apply SchedRun.completes; [exact Hg|discriminate|exact I]. Qed.
Print Assumptions C36_some_execution_finishes.

(** C37. Batch training: [batches] is what BatchWords sends (C15). *)
Theorem C37_batch_training : forall (A : Type) (batches : list (list A)) c iter n l,
  0 < c_g c -> 1 <= iter ->
  let mk := fun _ : nat => batch_source batches true in
  run_steps c iter mk n [init c (mk 0)] l ->
  good_run c iter mk batches (iter * (4 * length (concat batches) + 5 * length batches + 6)) n l.
Proof. intros A batches c iter n l Hg Hi mk H. exact (SchedRun.chan_run_lemma c iter batches n l Hg Hi H). Qed.
Print Assumptions C37_batch_training.

Theorem C37_some_execution_finishes : forall (A : Type) c (batches : list (list A)), 0 < c_g c ->
  exists n s, steps c n (init c (batch_source batches true)) s /\ finished s.
Proof. intros A c chunks Hg. apply SchedRun.completes; [exact Hg|discriminate|exact I]. Qed.
Print Assumptions C37_some_execution_finishes.

(** C38. Both modes, any reachable state of an iteration. *)
Theorem C38_resources : forall (A : Type) c (x : source A) n s,
  (exists chunks, x = Mem chunks) \/ (exists batches closes, x = batch_source batches closes) ->
  steps c n (init c x) s ->
  count holds_sem s <= c_g c /\ count holds_sem s = sem s /\
  (forall i y t, at_w s i (WRun (y :: t)) -> c_pool c = true -> 0 < pool s) /\
  (forall i y t, at_w s i (WHold y t) -> pool s < c_g c) /\
  pool s + count in_train s = c_g c.
Proof.
  intros A c x n s Hx. apply SchedRun.resources_lemma.
  intros u b E. destruct Hx as [(ch & ->)|(bt & cl & ->)]; [discriminate|]. destruct cl; discriminate.
Qed.
Print Assumptions C38_resources.

(** C39. Goroutines = 0, in memory: there are no slices; the iteration ends, nothing is handled. *)
Theorem C39_zero_goroutines_memory : forall (A : Type) (doc : list A) pooled skips n s,
  exists bounds, index_per_thread 0 (Z.of_nat (length doc)) = Ret bounds /\
  let c := Cfg 0 pooled skips in
  (steps c n (init c (Mem (slices doc bounds))) s ->
   wks s = [] /\ log s = [] /\ ((forall s', ~ step c s s') -> finished s)).
Proof.
  intros A doc pooled skips n s. exists [Z.of_nat (length doc)].
  split; [apply (ModelUtil.index_per_thread_edge (Z.of_nat (length doc)))|]. cbv zeta. cbn [slices]. intros H.
  destruct (SchedRun.empty_mem _ _ _ H) as (H1 & H2 & _ & H4). auto.
Qed.
Print Assumptions C39_zero_goroutines_memory.

(** C39. Goroutines = 0, batch mode with at least one batch (BatchWords always sends one, C15):
    executions are finite, but the main goroutine never gets past wg.Wait and nothing is handled. *)
Theorem C39_zero_goroutines_batch : forall (A : Type) c (batches : list (list A)) n s,
  c_g c = 0 -> batches <> [] -> steps c n (init c (batch_source batches true)) s ->
  main s <> MDone /\ log s = [] /\ n <= 4 * length (concat batches) + 5 * length batches + 5.
Proof.
  intros A c batches n s Hg Hb H.
  destruct (SchedRun.zero_lemma c (batch_source batches true) n s Hg ltac:(unfold batch_source; discriminate) H) as ((_ & HL) & HM).
  split; [exact (HM Hb)|]. split; [exact HL|].
  pose proof (Proofs.Sched.steps_mu _ _ _ _ H) as HB. eapply Nat.le_trans; [eapply Nat.le_trans; [apply Nat.le_add_r|exact HB]|].
  unfold Proofs.Sched.mu. cbn [init src main wks obs crashed batch_source Proofs.Sched.src_mu Proofs.Sched.sum].
  rewrite SchedRun.sum_len. rewrite !Nat.add_0_r, <- !Nat.add_assoc. reflexivity.
Qed.
Print Assumptions C39_zero_goroutines_batch.

(** C72. If BatchWords returns an error (C16), the main goroutine never leaves the loop over the
    channel, in any execution; executions are finite: training hangs. *)
Theorem C72_batch_read_error_hangs : forall (A : Type) c (batches : list (list A)) n s,
  steps c n (init c (batch_source batches false)) s ->
  main s = MLoop /\ n <= 4 * length (concat batches) + 5 * length batches + 4.
Proof.
  intros A c batches n s H. split; [exact (SchedRun.fail_lemma c batches n s H)|].
  pose proof (Proofs.Sched.steps_mu _ _ _ _ H) as HB. eapply Nat.le_trans; [eapply Nat.le_trans; [apply Nat.le_add_r|exact HB]|].
  unfold Proofs.Sched.mu. cbn [init src main wks obs crashed batch_source Proofs.Sched.src_mu Proofs.Sched.sum].
  rewrite SchedRun.sum_len. rewrite !Nat.add_0_r, <- !Nat.add_assoc. reflexivity.
Qed.
Print Assumptions C72_batch_read_error_hangs.

(** A concrete interleaving of two workers: worker 1 finishes its item while worker 0 is still
    in trainOne. *)
Example C36_case : exists s,
  steps (Cfg 2 true true) 8 (init (Cfg 2 true true) (Mem [[10]; [20; 30]])) s /\
  log s = [(1, 20)] /\ at_w s 0 (WHold 10 []) /\ ticks (obs s) = 1 /\ pool s = 1 /\ sem s = 2.
Proof.
  eexists. split.
  - eapply SchedRun.steps_snoc; [eapply s_spawn_mem; reflexivity|]; cbn.
    eapply SchedRun.steps_snoc; [eapply s_spawn_mem; reflexivity|]; cbn.
    eapply SchedRun.steps_snoc; [eapply (s_acquire _ _ 0); [reflexivity|reflexivity|cbn; auto]|]; cbn.
    eapply SchedRun.steps_snoc; [eapply (s_take _ _ 0); [reflexivity|eexists; reflexivity|reflexivity|cbn; auto]|]; cbn.
    eapply SchedRun.steps_snoc; [eapply (s_acquire _ _ 1); [reflexivity|reflexivity|cbn; auto]|]; cbn.
    eapply SchedRun.steps_snoc; [eapply (s_take _ _ 1); [reflexivity|eexists; reflexivity|reflexivity|cbn; auto]|]; cbn.
    eapply SchedRun.steps_snoc; [eapply (s_give _ _ 1); [reflexivity|eexists; reflexivity|cbn; auto]|]; cbn.
    eapply SchedRun.steps_snoc; [eapply (s_tick _ _ 1); [reflexivity|eexists; reflexivity|reflexivity|reflexivity]|]; cbn.
    apply steps_0.
  - cbn. repeat split. exists [10]. reflexivity.
Qed.

(** Batch mode (C37, C38): one goroutine, two batches; after ten steps the only pooled vector is in use,
    the first batch is being trained and the second waits for the semaphore. *)
Example C37_case : exists s,
  steps (Cfg 1 true true) 7 (init (Cfg 1 true true) (batch_source [[10]; [20]] true)) s /\
  at_w s 0 (WHold 10 []) /\ nth_error (wks s) 1 = Some (Worker [20] WNew) /\ pool s = 0 /\ sem s = 1 /\ src s = Chan [] Closed [].
Proof.
  eexists. split.
  - eapply SchedRun.steps_snoc; [eapply s_send; [reflexivity|reflexivity|cbn; auto]|]; cbn.
    eapply SchedRun.steps_snoc; [eapply s_spawn_chan; reflexivity|]; cbn.
    eapply SchedRun.steps_snoc; [eapply s_send; [reflexivity|reflexivity|cbn; auto]|]; cbn.
    eapply SchedRun.steps_snoc; [eapply s_close; reflexivity|]; cbn.
    eapply SchedRun.steps_snoc; [eapply s_spawn_chan; reflexivity|]; cbn.
    eapply SchedRun.steps_snoc; [eapply (s_acquire _ _ 0); [reflexivity|reflexivity|cbn; auto]|]; cbn.
    eapply SchedRun.steps_snoc; [eapply (s_take _ _ 0); [reflexivity|eexists; reflexivity|reflexivity|cbn; auto]|]; cbn.
    apply steps_0.
  - cbn. repeat split. exists [10]. reflexivity.
Qed.

(** C39, C72: without goroutines the only batch is received and its worker waits for ever; a producer that
    fails leaves the main goroutine waiting. *)
Example C39_case : exists s,
  steps (Cfg 0 true true) 2 (init (Cfg 0 true true) (batch_source [[10]] true)) s /\
  nth_error (wks s) 0 = Some (Worker [10] WNew) /\ main s = MLoop /\ src s = Chan [] Closed [].
Proof.
  eexists. split.
  - eapply SchedRun.steps_snoc; [eapply s_spawn_meet; reflexivity|]; cbn.
    eapply SchedRun.steps_snoc; [eapply s_close; reflexivity|]; cbn.
    apply steps_0.
  - cbn. repeat split.
Qed.
Example C72_case : exists s,
  steps (Cfg 1 false true) 6 (init (Cfg 1 false true) (batch_source [[10]] false)) s /\
  log s = [(0, 10)] /\ ticks (obs s) = 1 /\ main s = MLoop /\ ~ step (Cfg 1 false true) s (St (src s) MWait (wks s) (obs s) (sem s) (pool s) (wg s) (tclosed s) false (log s)).
Proof.
  eexists. split.
  - eapply SchedRun.steps_snoc; [eapply s_send; [reflexivity|reflexivity|cbn; auto]|]; cbn.
    eapply SchedRun.steps_snoc; [eapply s_spawn_chan; reflexivity|]; cbn.
    eapply SchedRun.steps_snoc; [eapply (s_acquire _ _ 0); [reflexivity|reflexivity|cbn; auto]|]; cbn.
    eapply SchedRun.steps_snoc; [eapply (s_skip _ _ 0); [reflexivity|eexists; reflexivity|reflexivity]|]; cbn.
    eapply SchedRun.steps_snoc; [eapply (s_tick _ _ 0); [reflexivity|eexists; reflexivity|reflexivity|reflexivity]|]; cbn.
    eapply SchedRun.steps_snoc; [eapply s_obs; reflexivity|]; cbn.
    apply steps_0.
  - cbn. repeat (split; [reflexivity|]). intros H. inversion H.
Qed.
