From Coq Require Import Permutation.
From Verif.Lib Require Import Go ListFacts Tac.
From Verif.Model Require Import Sched.
From Verif.Spec Require Import Sched.

Section Sched.
Context {A : Type}.
Implicit Types (s : st A) (c : cfg).

Definition cnt (f : wstep A -> bool) (ws : list (worker A)) : nat := length (filter f (map w_at ws)).
Definition b2n (b : bool) : nat := if b then 1 else 0.

Lemma cnt_app f ws w : cnt f (ws ++ [w]) = cnt f ws + b2n (f (w_at w)).
Proof.
  unfold cnt. rewrite map_app, filter_app, app_length. cbn [map filter]. destruct (f (w_at w)); reflexivity.
Qed.

Lemma cnt_upd f : forall ws i d d' w w', nth_error ws i = Some (Worker d w) ->
  cnt f (upd ws i (Worker d' w')) + b2n (f w) = cnt f ws + b2n (f w').
Proof.
  unfold cnt. induction ws as [|[d0 w0] ws IH]; intros [|i] d d' w w' H; cbn in H; try discriminate.
  - injection H as -> ->. cbn [upd map filter w_at]. destruct (f w), (f w'); cbn [length b2n]; lia.
  - cbn [upd map filter w_at]. specialize (IH i d d' w w' H). destruct (f w0); cbn [length]; lia.
Qed.

Lemma cnt_pos f : forall ws, 0 < cnt f ws -> exists i d w, nth_error ws i = Some (Worker d w) /\ f w = true.
Proof.
  unfold cnt. induction ws as [|[d w] ws IH]; cbn [map filter w_at length]; [lia|].
  destruct (f w) eqn:E; intros H.
  - exists 0, d, w. auto.
  - destruct (IH H) as (i & d' & w' & H1 & H2). exists (S i), d', w'. auto.
Qed.

Lemma cnt_ge f : forall ws i d w, nth_error ws i = Some (Worker d w) -> f w = true -> 0 < cnt f ws.
Proof.
  unfold cnt. induction ws as [|[d0 w0] ws IH]; intros [|i] d w H Hf; cbn in H; try discriminate.
  - injection H as -> ->. cbn [map filter w_at]. rewrite Hf. cbn. lia.
  - cbn [map filter w_at]. specialize (IH i d w H Hf). destruct (f w0); cbn [length]; lia.
Qed.

Lemma cnt_le f g : (forall w, f w = true -> g w = true) -> forall ws, cnt f ws <= cnt g ws.
Proof.
  intros H. unfold cnt. induction ws as [|[d w] ws IH]; cbn [map filter w_at]; [lia|].
  destruct (f w) eqn:E; [rewrite (H _ E); cbn [length]; lia|]. destruct (g w); cbn [length]; lia.
Qed.

Definition in_wg (w : wstep A) : bool := match w with WNew | WRun _ | WHold _ _ | WSend _ => true | _ => false end.
Definition in_send (w : wstep A) : bool := match w with WSend _ => true | _ => false end.
Definition is_end (w : wstep A) : bool := match w with WEnd => true | _ => false end.

Definition remaining (k : worker A) : list A :=
  match w_at k with
  | WNew => w_doc k | WRun t => t | WHold x t => x :: t | WSend t => t | WRel => [] | WEnd => [] end.

Definition pending (x : source A) : list (list A) :=
  match x with Mem r => r | Chan u _ b => b ++ u end.


Record inv c (chunks : list (list A)) s : Prop := {
  i_crash : crashed s = false;
  i_wg : wg s = cnt in_wg (wks s);
  i_sem : sem s = cnt holds_sem (wks s);
  i_semle : sem s <= c_g c;
  i_pool : pool s + cnt in_train (wks s) = c_g c;
  i_holdpool : c_pool c = false -> cnt in_train (wks s) = 0;
  i_closed : tclosed s = true <-> main s = MDone;
  i_done : main s = MDone -> wg s = 0;
  i_chunks : map (@w_doc A) (wks s) ++ pending (src s) = chunks;
  i_src : main s <> MLoop -> pending (src s) = [];
  i_chan : forall u b, src s = Chan u Closed b -> u = [];
  i_obs : ticks (obs s) + cnt in_send (wks s) = length (log s);
  i_obsend : forall n, obs s = OEnd n -> main s = MDone;
  i_log : forall i k, nth_error (wks s) i = Some k -> by_worker i (log s) ++ remaining k = w_doc k;
  i_idx : Forall (fun p => fst p < length (wks s)) (log s)
}.

Lemma by_worker_app i (l : list (nat * A)) j x : by_worker i (l ++ [(j, x)]) = by_worker i l ++ (if Nat.eqb j i then [x] else []).
Proof.
  unfold by_worker. rewrite filter_app, map_app. cbn [filter fst]. destruct (Nat.eqb j i); reflexivity.
Qed.

Lemma by_worker_none i (l : list (nat * A)) : Forall (fun p => fst p < i) l -> by_worker i l = [].
Proof.
  unfold by_worker. induction 1 as [|p l H _ IH]; [reflexivity|]. cbn [filter].
  destruct (Nat.eqb_spec (fst p) i); [lia|]. exact IH.
Qed.

Lemma set_w_eq s i d w w' : nth_error (wks s) i = Some (Worker d w) -> set_w s i w' = upd (wks s) i (Worker d w').
Proof. intros H. unfold set_w. rewrite H. reflexivity. Qed.

Lemma map_doc_upd : forall (ws : list (worker A)) i d w w', nth_error ws i = Some (Worker d w) ->
  map (@w_doc A) (upd ws i (Worker d w')) = map (@w_doc A) ws.
Proof.
  induction ws as [|k ws IH]; intros [|i] d w w' H; cbn in H; try discriminate.
  - injection H as ->. reflexivity.
  - cbn [upd map]. f_equal. eapply IH; eauto.
Qed.

(** A worker moves from [w] to [w'], logging [new]. *)
Lemma log_move (ws : list (worker A)) (l : list (nat * A)) i d w w' (new : list A) :
  nth_error ws i = Some (Worker d w) ->
  remaining (Worker d w) = new ++ remaining (Worker d w') -> length new <= 1 ->
  (forall j k, nth_error ws j = Some k -> by_worker j l ++ remaining k = w_doc k) ->
  forall j k, nth_error (upd ws i (Worker d w')) j = Some k ->
    by_worker j (l ++ map (pair i) new) ++ remaining k = w_doc k.
Proof.
  intros Hi Hr Hn H j k Hk.
  assert (Hlt : i < length ws) by (apply nth_error_Some; congruence).
  assert (E : by_worker j (l ++ map (pair i) new) = by_worker j l ++ (if Nat.eqb i j then new else [])).
  { destruct new as [|x [|y new]]; cbn [map length] in *; [|apply by_worker_app|lia].
    rewrite !app_nil_r. destruct (Nat.eqb i j); rewrite app_nil_r; reflexivity. }
  rewrite E. destruct (Nat.eqb_spec i j) as [<-|Hne].
  - rewrite upd_nth_error_eq in Hk by auto. injection Hk as <-. cbn [w_doc].
    rewrite <- app_assoc, <- Hr. apply (H i (Worker d w) Hi).
  - rewrite upd_nth_error_neq in Hk by auto. rewrite app_nil_r. apply H; auto.
Qed.

Lemma log_idx (ws : list (worker A)) (l : list (nat * A)) i k (new : list A) : i < length ws ->
  Forall (fun p => fst p < length ws) l ->
  Forall (fun p : nat * A => fst p < length (upd ws i k)) (l ++ map (pair i) new).
Proof.
  intros Hi H. rewrite upd_length. apply Forall_app. split; auto.
  apply Forall_forall. intros p Hp. apply in_map_iff in Hp. destruct Hp as (x & <- & _). exact Hi.
Qed.

Lemma init_inv c x : (forall u b, x = Chan u Closed b -> u = []) -> inv c (pending x) (init c x).
Proof.
  intros Hx. constructor; cbn; auto; try lia; try congruence.
  - split; discriminate.
  - intros [|i] k H; discriminate.
Qed.

Ltac counts H :=
  match type of H with
  | nth_error ?ws ?i = Some (Worker ?d ?w) =>
      match goal with |- context [upd ws i (Worker d ?w')] =>
        pose proof (cnt_upd in_wg ws i d d w w' H);
        pose proof (cnt_upd holds_sem ws i d d w w' H);
        pose proof (cnt_upd in_train ws i d d w w' H);
        pose proof (cnt_upd in_send ws i d d w w' H);
        cbn [in_wg holds_sem in_train in_send b2n] in *
      end
  end.

Ltac nolog new s := match new with nil => rewrite <- (app_nil_r (log s)) | _ => idtac end.
(** The five invariants about one moving worker, for a step that logs [new]. *)
Ltac wmove Hi I new :=
  match type of Hi with
  | nth_error (wks ?s) ?i = Some (Worker ?d ?w) =>
      rewrite (set_w_eq s i d w _ Hi);
      let Hlt := fresh "Hlt" in
      assert (Hlt : i < length (wks s)) by (apply nth_error_Some; congruence);
      pose proof (cnt_ge in_wg _ _ _ _ Hi) as Gwg; pose proof (cnt_ge holds_sem _ _ _ _ Hi) as Gsem;
      pose proof (cnt_ge in_train _ _ _ _ Hi) as Ghold; pose proof (cnt_ge in_send _ _ _ _ Hi) as Gsend;
      counts Hi;
      destruct I as [I1 I2 I3 I4 I5 I6 I7 I8 I9 I10 I11 I12 I13 I14 I15];
      constructor; cbn [src main wks obs sem pool wg tclosed crashed log ticks] in *;
      [ reflexivity | lia | lia | try lia | lia | let Hp' := fresh in intros Hp'; specialize (I6 Hp'); try lia | exact I7
      | let Hm' := fresh in intros Hm'; specialize (I8 Hm'); try lia | rewrite (map_doc_upd _ _ _ w _ Hi); exact I9 | exact I10 | exact I11
      | try rewrite app_length; cbn [length]; try lia | try exact I13
      | nolog new s; refine (log_move (wks s) (log s) i d w _ new Hi _ _ I14); [reflexivity|cbn; lia]
      | nolog new s; exact (log_idx (wks s) (log s) i _ new Hlt I15) ]
  end.

Lemma spawn_inv c chunks s d x : inv c chunks s -> main s = MLoop -> pending (src s) = d :: pending x ->
  (forall u b, x = Chan u Closed b -> u = []) ->
  inv c chunks (St x MLoop (wks s ++ [Worker d WNew]) (obs s) (sem s) (pool s) (S (wg s)) (tclosed s) false (log s)).
Proof.
  intros [I1 I2 I3 I4 I5 I6 I7 I8 I9 I10 I11 I12 I13 I14 I15] Hm Hs Hx.
  constructor; cbn [src main wks obs sem pool wg tclosed crashed log] in *;
    rewrite ?cnt_app, ?map_app, ?app_length; cbn [w_at w_doc map in_wg holds_sem in_train in_send b2n length].
  - reflexivity.
  - lia.
  - lia.
  - lia.
  - lia.
  - intros Hp; specialize (I6 Hp); lia.
  - rewrite I7, Hm; split; discriminate.
  - discriminate.
  - rewrite <- I9, Hs, <- app_assoc; reflexivity.
  - congruence.
  - exact Hx.
  - lia.
  - intros n E; specialize (I13 n E); congruence.
  - intros i k Hk; destruct (Nat.lt_ge_cases i (length (wks s))) as [Hlt|Hge].
    + rewrite nth_error_app1 in Hk by auto; apply I14; auto.
    + rewrite nth_error_app2 in Hk by auto; destruct (i - length (wks s)) as [|m] eqn:Em.
      * injection Hk as <-; cbn [remaining w_at w_doc]; rewrite by_worker_none; [reflexivity|].
        eapply Forall_impl; [|exact I15]; cbn; intros; lia.
      * destruct m; discriminate.
  - eapply Forall_impl; [|exact I15]; cbn; intros; lia.
Qed.

Ltac fin Hs Isrc Ichan Ichunks Iobsend Iclosed :=
  first
  [ reflexivity
  | congruence
  | rewrite Iclosed; split; congruence
  | tauto
  | rewrite <- Ichunks, Hs; cbn [pending]; rewrite <- ?app_assoc; reflexivity
  | intros _; apply Isrc; congruence
  | intros ?n ?E; specialize (Iobsend _ E); congruence
  | let H := fresh in intros H; specialize (Isrc H); rewrite Hs in Isrc; cbn [pending] in Isrc;
    first [exact Isrc | match type of Isrc with ?b ++ _ = _ => destruct b; discriminate end]
  | let E := fresh in intros ? ? E; injection E as -> -> _; exfalso; specialize (Ichan _ _ Hs); discriminate
  | let E := fresh in intros ? ? E; injection E as <- _; first [reflexivity | exact (Ichan _ _ Hs)]
  | intros _; specialize (Ichan _ _ Hs); subst; reflexivity ].

Lemma step_inv c chunks s s' : inv c chunks s -> step c s s' -> inv c chunks s'.
Proof.
  intros I HS. destruct HS as
    [s d rest Hc Hm Hs|s Hc Hm Hs|s d u e buf Hc Hs Hl|s buf Hc Hs|s u e d buf Hc Hm Hs|s u e d Hc Hm Hs Hg|s u Hc Hm Hs
    |s Hc Hm Hw|s i d Hc Hi Hl|s i x t Hc (d & Hi) Hk|s i x t Hc (d & Hi) Hk Hp|s i x t Hc (d & Hi) Hp|s i x t Hc (d & Hi) Hk
    |s i t n Hc (d & Hi) Ht Ho|s i t Hc (d & Hi) Ht|s i Hc (d & Hi) Hw|s i Hc (d & Hi) Hw|s i Hc (d & Hi)|s n Hc Ho|s n Hc Ho Ht].
  - apply (spawn_inv c chunks s d); [exact I|exact Hm|rewrite Hs; reflexivity|discriminate].
  - (* mem_end *) destruct I; constructor; cbn [src main wks obs sem pool wg tclosed crashed log] in *; try assumption; fin Hs i_src0 i_chan0 i_chunks0 i_obsend0 i_closed0.
  - (* send *) destruct I; constructor; cbn [src main wks obs sem pool wg tclosed crashed log] in *; try assumption; fin Hs i_src0 i_chan0 i_chunks0 i_obsend0 i_closed0.
  - (* close *) destruct I; constructor; cbn [src main wks obs sem pool wg tclosed crashed log] in *; try assumption; fin Hs i_src0 i_chan0 i_chunks0 i_obsend0 i_closed0.
  - apply (spawn_inv c chunks s d); [exact I|exact Hm|rewrite Hs; reflexivity|].
    intros u' b' E; injection E as -> -> ->; exact (i_chan _ _ _ I _ _ Hs).
  - apply (spawn_inv c chunks s d); [exact I|exact Hm|rewrite Hs; reflexivity|].
    intros u' b' E; injection E as -> -> _; exfalso; pose proof (i_chan _ _ _ I _ _ Hs); discriminate.
  - (* chan_end *) destruct I; constructor; cbn [src main wks obs sem pool wg tclosed crashed log] in *; try assumption; fin Hs i_src0 i_chan0 i_chunks0 i_obsend0 i_closed0.
  - (* wait *) destruct I; constructor; cbn [src main wks obs sem pool wg tclosed crashed log] in *; try assumption; fin Hm i_src0 i_chan0 i_chunks0 i_obsend0 i_closed0.
  - (* acquire *) wmove Hi I (@nil A).
  - (* skip *) wmove Hi I [x].
  - (* take *) wmove Hi I (@nil A). congruence.
  - (* give *) wmove Hi I [x].
  - (* train *) wmove Hi I [x].
  - (* tick *) wmove Hi I (@nil A).
    + rewrite Ho in I12. cbn [ticks] in I12. lia.
    + discriminate.
  - (* closed *) exfalso. destruct I. pose proof (cnt_ge in_wg _ _ _ _ Hi eq_refl). apply i_closed0 in Ht. apply i_done0 in Ht. lia.
  - (* done *) wmove Hi I (@nil A).
  - (* negative *) exfalso. destruct I. pose proof (cnt_ge in_wg _ _ _ _ Hi eq_refl). lia.
  - (* release *) wmove Hi I (@nil A).
  - (* obs *) destruct I. constructor; cbn [src main wks obs sem pool wg tclosed crashed log] in *; auto.
    + rewrite Ho in i_obs0. exact i_obs0.
    + discriminate.
  - (* obs_end *) destruct I. constructor; cbn [src main wks obs sem pool wg tclosed crashed log] in *; auto.
    + rewrite Ho in i_obs0. exact i_obs0.
    + intros _ _. apply i_closed0. exact Ht.
Qed.

Lemma steps_inv c chunks n s s' : inv c chunks s -> steps c n s s' -> inv c chunks s'.
Proof. intros I H. revert I. induction H; intros I; [exact I|]. eapply step_inv; [apply IHsteps; exact I|eassumption]. Qed.

(** ** Progress *)

(** Some worker that is neither new nor ended can move, or the observer can. *)
Lemma active_moves c chunks s i d w : inv c chunks s -> nth_error (wks s) i = Some (Worker d w) -> holds_sem w = true ->
  exists s', step c s s'.
Proof.
  intros I Hi Hw. pose proof (i_crash _ _ _ I) as Hc.
  assert (AT : at_w s i w) by (exists d; exact Hi).
  destruct w as [|t|x t|t| |]; try discriminate Hw.
  - destruct t as [|x t].
    + pose proof (cnt_ge in_wg _ _ _ _ Hi eq_refl). rewrite <- (i_wg _ _ _ I) in H. eexists. eapply s_done; eauto.
    + destruct (c_pool c) eqn:Ep.
      * assert (0 < pool s).
        { pose proof (i_pool _ _ _ I). pose proof (i_semle _ _ _ I). pose proof (i_sem _ _ _ I).
          pose proof (cnt_upd holds_sem _ _ _ d _ WEnd Hi) as H2. pose proof (cnt_upd in_train _ _ _ d _ WEnd Hi) as H3.
          cbn [holds_sem in_train b2n] in H2, H3.
          pose proof (cnt_le in_train holds_sem (fun w => ltac:(destruct w; cbn; auto)) (upd (wks s) i (Worker d WEnd))). lia. }
        eexists. eapply s_take; eauto.
      * eexists. eapply s_train; eauto.
  - pose proof (cnt_ge in_train _ _ _ _ Hi eq_refl). pose proof (i_pool _ _ _ I).
    eexists. eapply s_give; eauto. lia.
  - destruct (obs s) as [n|n|n] eqn:Ho.
    + destruct (tclosed s) eqn:Et; [eexists; eapply s_tick_closed; eauto|]. eexists. eapply s_tick; eauto.
    + eexists. eapply s_obs; eauto.
    + exfalso. pose proof (i_obsend _ _ _ I n Ho) as Hd. apply (i_done _ _ _ I) in Hd.
      pose proof (cnt_ge in_wg _ _ _ _ Hi eq_refl). rewrite <- (i_wg _ _ _ I) in H. lia.
  - eexists. eapply s_release; eauto.
Qed.

(** Nothing is stuck, except where the producer failed or the semaphore has size 0. *)
Lemma progress c chunks s : inv c chunks s -> 0 < c_g c -> (forall u b, src s <> Chan u WillFail b) ->
  finished s \/ exists s', step c s s'.
Proof.
  intros I Hg Hf. pose proof (i_crash _ _ _ I) as Hc.
  destruct (main s) eqn:Hm.
  - right. destruct (src s) as [[|d rest]|u e [|d b]] eqn:Hs.
    + eexists. eapply s_mem_end; eauto.
    + eexists. eapply s_spawn_mem; eauto.
    + destruct u as [|d u].
      * destruct e.
        -- eexists. eapply s_close; eauto.
        -- exfalso. eapply Hf; reflexivity.
        -- eexists. eapply s_chan_end; eauto.
      * eexists. eapply s_send; eauto.
    + eexists. eapply s_spawn_chan; eauto.
  - right. destruct (Nat.eq_dec (wg s) 0) as [Hw|Hw]; [eexists; eapply s_wait; eauto|].
    destruct (cnt_pos in_wg (wks s)) as (i & d & w & Hi & Hwg); [rewrite <- (i_wg _ _ _ I); lia|].
    destruct (holds_sem w) eqn:Es; [eapply active_moves; eauto|].
    destruct w; try discriminate.
    destruct (Nat.lt_ge_cases (sem s) (c_g c)) as [Hl|Hl]; [eexists; eapply s_acquire; eauto|].
    destruct (cnt_pos holds_sem (wks s)) as (j & d' & w' & Hj & Hw'); [rewrite <- (i_sem _ _ _ I); lia|].
    eapply active_moves; eauto.
  - destruct (obs s) as [n|n|n] eqn:Ho.
    + right. eexists. eapply s_obs_end; eauto. apply (i_closed _ _ _ I); auto.
    + right. eexists. eapply s_obs; eauto.
    + destruct (Nat.eq_dec (cnt (fun w => negb (is_end w)) (wks s)) 0) as [H0|H0].
      * left. split; [exact Hm|]. split; [exists n; exact Ho|].
        apply Forall_forall. intros [d w] Hin. apply In_nth_error in Hin. destruct Hin as (i & Hi). cbn [w_at].
        destruct w; auto; exfalso; pose proof (cnt_ge (fun w => negb (is_end w)) _ _ _ _ Hi eq_refl); lia.
      * right. destruct (cnt_pos (fun w => negb (is_end w)) (wks s)) as (i & d & w & Hi & Hw); [lia|].
        destruct (holds_sem w) eqn:Es; [eapply active_moves; eauto|].
        exfalso. pose proof (i_done _ _ _ I Hm) as Hwg. rewrite (i_wg _ _ _ I) in Hwg.
        destruct w; try discriminate. pose proof (cnt_ge in_wg _ _ _ _ Hi eq_refl). lia.
Qed.

(** ** Termination *)
Definition w_mu (k : worker A) : nat :=
  match w_at k with
  | WNew => 4 * length (w_doc k) + 3 | WRun t => 4 * length t + 2 | WHold x t => 4 * length t + 5
  | WSend t => 4 * length t + 4 | WRel => 1 | WEnd => 0 end.
Fixpoint sum {X} (f : X -> nat) (l : list X) : nat := match l with [] => 0 | x :: l' => f x + sum f l' end.
Definition src_mu (x : source A) : nat :=
  match x with
  | Mem r => sum (fun d => 4 * length d + 4) r
  | Chan u e b => sum (fun d => 4 * length d + 5) u + sum (fun d => 4 * length d + 4) b + (match e with WillClose => 1 | _ => 0 end)
  end.
Definition mu s : nat :=
  src_mu (src s) + sum w_mu (wks s) + (match main s with MLoop => 2 | MWait => 1 | MDone => 0 end)
  + (match obs s with ORecv _ => 1 | OBusy _ => 2 | OEnd _ => 0 end) + (if crashed s then 0 else 1).

Lemma sum_app {X} (f : X -> nat) l1 l2 : sum f (l1 ++ l2) = sum f l1 + sum f l2.
Proof. induction l1 as [|x l IH]; cbn [sum app]; lia. Qed.

Lemma sum_upd {X} (f : X -> nat) : forall l i x y, nth_error l i = Some x -> sum f (upd l i y) + f x = sum f l + f y.
Proof.
  induction l as [|z l IH]; intros [|i] x y H; cbn in H; try discriminate.
  - injection H as ->. cbn [upd sum]. lia.
  - cbn [upd sum]. specialize (IH i x y H). lia.
Qed.

Lemma step_mu c s s' : step c s s' -> mu s' < mu s.
Proof.
  intros HS. destruct HS as
    [s d rest Hc Hm Hs|s Hc Hm Hs|s d u e buf Hc Hs Hl|s buf Hc Hs|s u e d buf Hc Hm Hs|s u e d Hc Hm Hs Hg|s u Hc Hm Hs
    |s Hc Hm Hw|s i d Hc Hi Hl|s i x t Hc (d & Hi) Hk|s i x t Hc (d & Hi) Hk Hp|s i x t Hc (d & Hi) Hp|s i x t Hc (d & Hi) Hk
    |s i t n Hc (d & Hi) Ht Ho|s i t Hc (d & Hi) Ht|s i Hc (d & Hi) Hw|s i Hc (d & Hi) Hw|s i Hc (d & Hi)|s n Hc Ho|s n Hc Ho Ht];
  unfold mu; cbn [src main wks obs sem pool wg tclosed crashed log]; rewrite Hc.
  1-8: rewrite ?Hm, ?Hs; cbn [src_mu]; rewrite ?sum_app; cbn [sum w_mu w_at w_doc]; try lia.
  all: try match goal with Hi : nth_error (wks ?s) ?i = Some (Worker ?d ?w) |- context [set_w ?s ?i ?w'] =>
      rewrite (set_w_eq s i d w w' Hi);
      pose proof (sum_upd w_mu (wks s) i _ (Worker d w') Hi) as HU; cbn [w_mu w_at w_doc length] in HU end.
  all: rewrite ?Ho; lia.
Qed.

Lemma steps_mu c n s s' : steps c n s s' -> n + mu s' <= mu s.
Proof. induction 1 as [|n s s' s'' _ IH HS]; [lia|]. apply step_mu in HS. lia. Qed.

(** ** What the log says *)
Lemma filter_split (l : list (nat * A)) : forall n, Forall (fun p => fst p < n) l ->
  Permutation (map snd l) (concat (map (fun i => by_worker i l) (seq 0 n))).
Proof.
  induction l as [|[i x] l IH]; intros n H.
  - cbn [map]. assert (E : forall m k, concat (map (fun i => by_worker i (@nil (nat * A))) (seq k m)) = []).
    { induction m as [|m IHm]; intros k; [reflexivity|]. cbn [seq map concat]. rewrite IHm. reflexivity. }
    rewrite E. constructor.
  - inversion H as [|? ? Hi Hl]; subst. cbn [fst] in Hi. cbn [map snd].
    replace n with (i + S (n - S i)) by lia. rewrite seq_app, map_app, concat_app. cbn [seq map concat].
    specialize (IH n Hl). replace n with (i + S (n - S i)) in IH by lia.
    rewrite seq_app, map_app, concat_app in IH. cbn [seq map concat] in IH.
    assert (E : forall k m, (k + m <= i \/ i < k) ->
      map (fun j => by_worker j ((i, x) :: l)) (seq k m) = map (fun j => by_worker j l) (seq k m)).
    { intros k m Hk. apply map_ext_in. intros j Hj. apply in_seq in Hj. unfold by_worker. cbn [filter fst].
      destruct (Nat.eqb_spec i j); [lia|reflexivity]. }
    rewrite !E by lia. unfold by_worker at 2. cbn [filter fst]. rewrite Nat.add_0_l, Nat.eqb_refl. cbn [map snd app].
    fold (by_worker i l). apply Permutation_cons_app. exact IH.
Qed.

Lemma concat_perm (B C : list (list A)) : length B = length C ->
  Permutation (concat B ++ concat C) (concat (map (fun p => fst p ++ snd p) (combine B C))).
Proof.
  revert C. induction B as [|b B IH]; intros [|d C] H; try discriminate H; [constructor|].
  cbn [combine map concat fst snd]. injection H as H. rewrite <- !app_assoc. apply Permutation_app_head.
  rewrite app_assoc. etransitivity; [apply Permutation_app_tail, Permutation_app_comm|].
  rewrite <- app_assoc. apply Permutation_app_head. apply IH; auto.
Qed.

(** At any time: handled + still to do = everything. *)
Lemma log_perm c chunks s : inv c chunks s ->
  Permutation (map snd (log s) ++ concat (map remaining (wks s) ++ pending (src s))) (concat chunks).
Proof.
  intros I. rewrite (filter_split _ _ (i_idx _ _ _ I)). rewrite concat_app, app_assoc.
  rewrite concat_perm by (rewrite !map_length, seq_length; reflexivity).
  rewrite <- (i_chunks _ _ _ I), concat_app. apply Permutation_app_tail.
  match goal with |- Permutation (concat ?a) (concat ?b) => assert (E : a = b); [|rewrite E; reflexivity] end.
  apply nth_ext_error. intros i.
  pose proof (i_log _ _ _ I) as HL. set (ws := wks s) in *. clearbody ws.
  destruct (nth_error ws i) as [k|] eqn:Ek.
  - assert (Hi : i < length ws) by (apply nth_error_Some; congruence).
    rewrite (map_nth_error (@w_doc A) i ws Ek).
    assert (E1 : nth_error (combine (map (fun i0 => by_worker i0 (log s)) (seq 0 (length ws))) (map remaining ws)) i
                 = Some (by_worker i (log s), remaining k)).
    { clear - Ek Hi. rewrite <- (Nat.add_0_l i) at 2. generalize 0 as b. revert i Ek Hi.
      induction ws as [|w ws IH]; intros [|i] Ek Hi b; cbn in Ek; try discriminate.
      - injection Ek as ->. cbn [length seq map combine nth_error]. rewrite Nat.add_0_r. reflexivity.
      - cbn [length seq map combine nth_error]. rewrite (IH i Ek ltac:(cbn in Hi; lia) (S b)). f_equal. f_equal. f_equal. lia. }
    rewrite (map_nth_error _ i _ E1). cbn [fst snd]. f_equal. apply HL; auto.
  - assert (Hi : length ws <= i) by (apply nth_error_None; auto).
    rewrite (proj2 (nth_error_None _ _)), (proj2 (nth_error_None _ _)); auto.
    + rewrite map_length; auto.
    + rewrite map_length, combine_length, !map_length, seq_length. lia.
Qed.

(** When the main goroutine has left the iteration, all is handled. *)
Lemma done_all c chunks s : inv c chunks s -> main s = MDone ->
  pending (src s) = [] /\ Forall (fun k => remaining k = []) (wks s) /\ cnt in_send (wks s) = 0.
Proof.
  intros I Hm. split; [apply (i_src _ _ _ I); congruence|].
  pose proof (i_done _ _ _ I Hm) as Hw. rewrite (i_wg _ _ _ I) in Hw. split.
  - apply Forall_forall. intros [d w] Hin. apply In_nth_error in Hin. destruct Hin as (i & Hi).
    destruct w; auto; exfalso; pose proof (cnt_ge in_wg _ _ _ _ Hi eq_refl); lia.
  - pose proof (cnt_le in_send in_wg (fun w => ltac:(destruct w; cbn; auto)) (wks s)). lia.
Qed.

Lemma done_lemma c chunks s : inv c chunks s -> main s = MDone ->
  map (@w_doc A) (wks s) = chunks /\
  (forall i d, nth_error chunks i = Some d -> by_worker i (log s) = d) /\
  Permutation (map snd (log s)) (concat chunks) /\
  ticks (obs s) = length (concat chunks).
Proof.
  intros I Hm. destruct (done_all c chunks s I Hm) as (Hp & Hr & Hs).
  pose proof (i_chunks _ _ _ I) as Hch. rewrite Hp, app_nil_r in Hch.
  assert (HP : Permutation (map snd (log s)) (concat chunks)).
  { rewrite <- (log_perm _ _ _ I), Hp, app_nil_r.
    assert (E : concat (map remaining (wks s)) = []).
    { clear - Hr. induction Hr as [|k ws H _ IH]; [reflexivity|]. cbn [map concat]. rewrite H, IH. reflexivity. }
    rewrite E, app_nil_r. reflexivity. }
  split; [exact Hch|]. split; [|split; [exact HP|]].
  - intros i d Hi. rewrite <- Hch in Hi. destruct (nth_error (wks s) i) as [k|] eqn:Ek.
    + rewrite (map_nth_error _ i _ Ek) in Hi. injection Hi as <-. rewrite <- (i_log _ _ _ I i k Ek).
      rewrite Forall_forall in Hr. rewrite (Hr k (nth_error_In _ _ Ek)), app_nil_r. reflexivity.
    + exfalso. apply nth_error_None in Ek. assert (nth_error (map (@w_doc A) (wks s)) i = None) by (apply nth_error_None; rewrite map_length; auto). congruence.
  - pose proof (i_obs _ _ _ I) as Ho. rewrite Hs, Nat.add_0_r in Ho. rewrite Ho, <- (map_length snd).
    apply Permutation_length; exact HP.
Qed.
End Sched.
