(** Executable schedules for Model/RaceHS.v. *)
From Coq Require Import Lia.
From Verif.Lib Require Import Go F64.
From Verif.Model Require Import RaceHS.

(** Which goroutine makes the next access; the random numbers are 0. *)
Fixpoint follow (sched : list nat) (s : hsystem) : outcome hsystem :=
  match sched with
  | [] => Ret s
  | i :: sched' =>
      match nth_error (hy_threads s) i with
      | Some p => if hdone p then follow sched' s
                  else obind (hexec fzero (hy_mem s) p) (fun '(m', p') => follow sched' (HSys m' (upd (hy_threads s) i p')))
      | None => Panic
      end
  end.
Lemma hruns_trans s1 s2 s3 : hruns s1 s2 -> hruns s2 s3 -> hruns s1 s3.
Proof. intros H1 H2. induction H2 as [|? s' s'' H IH St]; [exact H1|]. eapply hr_step; [apply IH; exact H1|exact St]. Qed.
Lemma follow_runs : forall sched s s', follow sched s = Ret s' -> hruns s s'.
Proof.
  induction sched as [|i sched IH]; intros s s' H; cbn [follow] in H.
  - injection H as <-. constructor.
  - destruct (nth_error (hy_threads s) i) as [p|] eqn:E; [|discriminate]. destruct (hdone p) eqn:D; [auto|].
    destruct (hexec fzero (hy_mem s) p) as [[m' p']|e|] eqn:X; cbn [obind] in H; try discriminate.
    specialize (IH _ _ H). destruct s as [m ts]. cbn [hy_mem hy_threads] in *.
    pose proof (hs_thread m ts i p fzero E D) as ST. rewrite X in ST. cbn [obind] in ST.
    eapply hruns_trans; [eapply hr_step; [constructor|exact ST]|exact IH].
Qed.
