(** * Properties of the learning-rate schedule (C40, C41, C73)

    [lr_ticks o cnts (lo_init o)] is the rate after the observer handled the ticks [cnts]
    (their counters, in order) starting from Initlr. *)
From Coq Require Import Reals Lra Lia.
From Flocq Require Import Core BinarySingleNaN.
From Verif.Lib Require Import Go F64 F64Facts Tac.
From Verif.Model Require Import LearningRate.
From Verif.Proofs Require LearningRate.
Local Open Scope R_scope.

(** Usable options: finite rates >= 0, UpdateLRBatch not 0, no division by a zero LogBatch, and a
    text of 1 .. 2^53 words. *)
Definition usable (o : lr_opts) : Prop :=
  is_fin (lo_init o) = true /\ 0 <= f2r (lo_init o) /\
  is_fin (lo_min o) = true /\ 0 <= f2r (lo_min o) /\ (1 <= lo_len o <= 2 ^ 53)%Z /\
  lo_batch o <> 0%Z /\ (lo_verbose o = false \/ lo_logbatch o <> 0%Z).

Lemma usable_ok o : usable o -> Proofs.LearningRate.opts_ok o /\ lo_batch o <> 0%Z /\ (lo_verbose o = false \/ lo_logbatch o <> 0%Z).
Proof. unfold usable, Proofs.LearningRate.opts_ok. tauto. Qed.

(** The default options of word2vec (word2vec/options.go:38-58) on a text of [n] words. *)
Definition defaults (n : Z) : lr_opts :=
  LrOpts (f_dec 25 3) (fmul (f_dec 25 3) (f_dec 1 4)) 100000 n false 100000.

(** C40. In every sequence of ticks of any number of iterations, in any order, no step panics and
    the rate stays a finite number between 0 and max(Initlr, MinLR). *)
Theorem C40_rate_in_range : forall o cnts, usable o -> Forall (fun c => 1 <= c <= lo_len o)%Z cnts ->
  exists lr, lr_ticks o cnts (lo_init o) = Ret lr /\ is_fin lr = true /\
    0 <= f2r lr <= Rmax (f2r (lo_init o)) (f2r (lo_min o)).
Proof.
  intros o cnts Ho HC. destruct (usable_ok o Ho) as (H1 & H2 & H3).
  destruct (Proofs.LearningRate.range_lemma o cnts H1 H2 H3 HC) as (lr & E & F & B). eauto.
Qed.
Print Assumptions C40_rate_in_range.

(** C40. The rate changes only at ticks that are multiples of UpdateLRBatch. *)
Theorem C40_changes_only_at_batches : forall o cnt lr lr',
  lr_tick o cnt lr = Ret lr' -> ~ (lo_batch o | cnt)%Z -> lr' = lr.
Proof.
  intros o cnt lr lr' E Hn. unfold lr_tick in E. destruct (Z.eqb_spec (lo_batch o) 0); [discriminate|].
  destruct (_ && _); [discriminate|]. injection E as <-. destruct (Z.eqb_spec (Z.rem cnt (lo_batch o)) 0) as [E|]; [|reflexivity].
  apply Z.rem_divide in E; [contradiction|assumption].
Qed.
Print Assumptions C40_changes_only_at_batches.

(** C40. UpdateLRBatch = 0 panics on the first tick. *)
Theorem C40_zero_batch_panics : forall o cnt lr, lo_batch o = 0%Z -> lr_tick o cnt lr = Panic.
Proof. intros o cnt lr E. unfold lr_tick. rewrite E. reflexivity. Qed.
Print Assumptions C40_zero_batch_panics.

(** C41. A rate of at least MinLR is set to exactly 0 by the last tick of an iteration over the
    whole text, when the number of words is a multiple of UpdateLRBatch ... *)
Theorem C41_rate_falls_to_zero : forall o lr, usable o -> (lo_batch o | lo_len o)%Z ->
  flt lr (lo_min o) = false ->
  exists lr', lr_tick o (lo_len o) lr = Ret lr' /\ is_fin lr' = true /\ f2r lr' = 0.
Proof.
  intros o lr Ho HD Hlt. destruct (usable_ok o Ho) as (H1 & H2 & H3).
  apply (Proofs.LearningRate.end_rate o lr H1 H2 H3); [|exact Hlt]. apply Z.rem_divide; assumption.
Qed.
Print Assumptions C41_rate_falls_to_zero.

(** C41. ... and stays there until the next update, which replaces a rate below MinLR by MinLR. *)
Theorem C41_below_min_is_replaced : forall o cnt lr, usable o -> flt lr (lo_min o) = true ->
  lr_tick o cnt lr = Ret (if (cnt mod lo_batch o =? 0)%Z then lo_min o else lr).
Proof.
  intros o cnt lr (_ & _ & _ & _ & _ & Hb & Hv) Hlt. unfold lr_tick. destruct (Z.eqb_spec (lo_batch o) 0); [contradiction|].
  rewrite Hlt. assert (lo_verbose o && (lo_logbatch o =? 0)%Z = false) as ->.
  { destruct Hv as [->|Hv]; [reflexivity|]. destruct (lo_verbose o); [|reflexivity]. cbn. apply Z.eqb_neq; auto. }
  destruct (Z.eqb_spec (Z.rem cnt (lo_batch o)) 0) as [E|E]; destruct (Z.eqb_spec (cnt mod lo_batch o) 0) as [E'|E']; try reflexivity.
  - apply Z.rem_divide in E; [|assumption]. apply Z.mod_divide in E; [contradiction|assumption].
  - apply Z.mod_divide in E'; [|assumption]. apply Z.rem_divide in E'; [contradiction|assumption].
Qed.
Print Assumptions C41_below_min_is_replaced.

(** C41. With the default options there is a text length and a run in which the rate drops
    below MinLR (the whole of the next 100000 words is trained with rate 0). *)
Theorem C41_min_lr_is_no_lower_bound : exists n cnts lr,
  usable (defaults n) /\ Forall (fun c => 1 <= c <= n)%Z cnts /\
  lr_ticks (defaults n) cnts (lo_init (defaults n)) = Ret lr /\ f2r lr = 0 /\ flt lr (lo_min (defaults n)) = true.
Proof.
  exists 100000%Z, [100000%Z].
  assert (HU : usable (defaults 100000)).
  { repeat split; try discriminate; try (left; reflexivity).
    - change (0 <= f2r (f_dec 25 3)). assert (E : fshow (f_dec 25 3) <> None) by (vm_compute; discriminate).
      assert (S : fshow (f_dec 25 3) = Some (7205759403792794, -58)%Z) by (vm_compute; reflexivity).
      destruct (fshow_spec _ _ _ S) as (_ & ->). apply Rmult_le_pos; [apply IZR_le; lia|apply bpow_ge_0].
    - change (0 <= f2r (fmul (f_dec 25 3) (f_dec 1 4))).
      assert (S : fshow (fmul (f_dec 25 3) (f_dec 1 4)) = Some (5902958103587057, -71)%Z) by (vm_compute; reflexivity).
      destruct (fshow_spec _ _ _ S) as (_ & ->). apply Rmult_le_pos; [apply IZR_le; lia|apply bpow_ge_0]. }
  assert (HL : flt (lo_init (defaults 100000)) (lo_min (defaults 100000)) = false) by (vm_compute; reflexivity).
  destruct (C41_rate_falls_to_zero (defaults 100000) (lo_init (defaults 100000)) HU) as (lr & E & F & Z0); [exists 1%Z; reflexivity|exact HL|].
  exists lr. split; [exact HU|]. split; [constructor; [cbn [lo_len]; lia|constructor]|].
  split; [|split; [exact Z0|]].
  - change 100000%Z with (lo_len (defaults 100000)) at 2. cbn [lr_ticks]. rewrite E. reflexivity.
  - apply flt_spec. split; [apply fin_not_nan, F|]. split; [apply fin_not_nan, HU|].
    rewrite !fkey_fin by (apply F || apply HU). rewrite Z0.
    change (0 < f2r (fmul (f_dec 25 3) (f_dec 1 4))).
    assert (S : fshow (fmul (f_dec 25 3) (f_dec 1 4)) = Some (5902958103587057, -71)%Z) by (vm_compute; reflexivity).
    destruct (fshow_spec _ _ _ S) as (_ & ->). apply Rmult_lt_0_compat; [apply IZR_lt; lia|apply bpow_gt_0].
Qed.
Print Assumptions C41_min_lr_is_no_lower_bound.

(** C73. At an update the new rate does not depend on the iteration or on earlier updates: while
    the rate is at least MinLR it is Initlr * (1 - cnt/Len) with the counter of the current iteration,
    so the schedule starts again near Initlr in every iteration. *)
Theorem C73_schedule_restarts : forall o cnt lr, usable o -> (lo_batch o | cnt)%Z -> flt lr (lo_min o) = false ->
  lr_tick o cnt lr = Ret (fmul (lo_init o) (fsub (f_of_Z 1) (fdiv (f_of_Z cnt) (f_of_Z (lo_len o))))).
Proof.
  intros o cnt lr (_ & _ & _ & _ & _ & Hb & Hv) HD Hlt. unfold lr_tick. destruct (Z.eqb_spec (lo_batch o) 0); [contradiction|].
  apply Z.rem_divide in HD; [|assumption]. rewrite HD, Hlt. cbn [Z.eqb].
  assert (lo_verbose o && (lo_logbatch o =? 0)%Z = false) as ->; [|reflexivity].
  destruct Hv as [->|Hv]; [reflexivity|]. destruct (lo_verbose o); [|reflexivity]. cbn. apply Z.eqb_neq; auto.
Qed.
Print Assumptions C73_schedule_restarts.

(** C73. Within an iteration (counters 1 .. Len increasing) these values never increase. *)
Theorem C73_decreasing_within_iteration : forall o c1 c2, usable o -> (1 <= c1 <= c2)%Z -> (c2 <= lo_len o)%Z ->
  let rate c := fmul (lo_init o) (fsub (f_of_Z 1) (fdiv (f_of_Z c) (f_of_Z (lo_len o)))) in
  fle (rate c2) (rate c1) = true.
Proof.
  intros o c1 c2 Ho H1 H2 rate. destruct (usable_ok o Ho) as (HO & _).
  destruct (Proofs.LearningRate.formula_ok o c1 HO ltac:(lia)) as (F1 & _).
  destruct (Proofs.LearningRate.formula_ok o c2 HO ltac:(lia)) as (F2 & _).
  apply fle_spec. split; [apply fin_not_nan, F2|]. split; [apply fin_not_nan, F1|].
  unfold rate. rewrite !fkey_fin by (apply F1 || apply F2). apply (Proofs.LearningRate.formula_decreasing o c1 c2 HO H1 H2).
Qed.
Print Assumptions C73_decreasing_within_iteration.

(** The rate rises again: 400000 words, default options, second iteration after the first. *)
Example C73_case :
  let o := defaults 400000 in
  map (fun cs => match lr_ticks o cs (lo_init o) with Ret x => fshow x | _ => None end)
    [[100000; 200000; 300000]; [100000; 200000; 300000; 100000]]%Z =
  map fshow [fmul (f_dec 25 3) (f_dec 25 2); fmul (f_dec 25 3) (f_dec 75 2)].
Proof. vm_compute. reflexivity. Qed.

(** The default options are usable for any text, and 100000 words meet the hypotheses of C40 and C41. *)
Example C40_case : forall n, (1 <= n <= 2 ^ 53)%Z -> usable (defaults n) /\ lr_tick (defaults n) 0 (f_of_Z 1) <> Panic.
Proof.
  intros n Hn. split; [|unfold lr_tick; discriminate].
  assert (L : fge (lo_init (defaults n)) fzero && fge (lo_min (defaults n)) fzero && is_fin (lo_init (defaults n)) && is_fin (lo_min (defaults n)) = true) by (vm_compute; reflexivity).
  apply andb_prop in L. destruct L as (L & F2). apply andb_prop in L. destruct L as (L & F1). apply andb_prop in L. destruct L as (L1 & L2).
  apply fge_spec in L1. apply fge_spec in L2. destruct L1 as (_ & _ & L1). destruct L2 as (_ & _ & L2). rewrite !fkey_fin in L1, L2 by (auto; reflexivity). rewrite fzero_r in L1, L2.
  unfold usable. split; [exact F1|]. split; [lra|]. split; [exact F2|]. split; [lra|]. split; [exact Hn|]. split; [discriminate|]. left. reflexivity.
Qed.
Example C41_case : usable (defaults 100000) /\ (lo_batch (defaults 100000) | lo_len (defaults 100000))%Z /\ flt (lo_init (defaults 100000)) (lo_min (defaults 100000)) = false.
Proof. split; [apply C40_case; lia|]. split; [exists 1%Z; reflexivity|vm_compute; reflexivity]. Qed.
