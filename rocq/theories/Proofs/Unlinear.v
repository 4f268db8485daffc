(** The converse of Linear.v: every interleaving of the slices is the order of some run. *)
From Coq Require Import Permutation Lia.
From Verif.Lib Require Import Go F64 ListFacts Tac.
From Verif.Spec Require Import Slices Sched Training Runs Interleave.
From Verif.Model Require Import Sched Run.
From Verif.Proofs Require Import Sched SchedRun Run RunOne.
Local Open Scope nat_scope.

Section WsOf.
Context {A : Type}.
Definition ws_of (chunks : list (list A)) (pc : nat -> list A -> wstep A) : list (worker A) :=
  map (fun p => Worker (snd p) (pc (fst p) (snd p))) (combine (seq 0 (length chunks)) chunks).
Lemma nth_combine_seq : forall (l : list (list A)) b i, nth_error (combine (seq b (length l)) l) i = option_map (pair (b + i)) (nth_error l i).
Proof.
  induction l as [|d l IH]; intros b [|i]; cbn [length seq combine nth_error option_map]; auto.
  - rewrite Nat.add_0_r. reflexivity.
  - rewrite IH. replace (S b + i) with (b + S i) by lia. reflexivity.
Qed.
Lemma ws_of_nth chunks pc i : nth_error (ws_of chunks pc) i = option_map (fun d => Worker d (pc i d)) (nth_error chunks i).
Proof. unfold ws_of. rewrite nth_error_map, nth_combine_seq. destruct (nth_error chunks i); reflexivity. Qed.
Lemma ws_of_length chunks pc : length (ws_of chunks pc) = length chunks.
Proof. unfold ws_of. rewrite map_length, combine_length, seq_length. lia. Qed.
Lemma ws_of_ext chunks pc pc' : (forall i d, nth_error chunks i = Some d -> pc i d = pc' i d) -> ws_of chunks pc = ws_of chunks pc'.
Proof.
  intros H. apply nth_ext_error. intros i. rewrite !ws_of_nth. destruct (nth_error chunks i) as [d|] eqn:E; [|reflexivity]. cbn. rewrite (H i d E). reflexivity.
Qed.
Lemma ws_of_upd chunks pc i d w : nth_error chunks i = Some d ->
  upd (ws_of chunks pc) i (Worker d w) = ws_of chunks (fun j e => if j =? i then w else pc j e).
Proof.
  intros E. apply nth_ext_error. intros j. rewrite ws_of_nth.
  assert (Hi : i < length (ws_of chunks pc)) by (rewrite ws_of_length; apply nth_error_Some; congruence).
  destruct (Nat.eqb_spec j i) as [->|N].
  - rewrite upd_nth_error_eq by auto. rewrite E. reflexivity.
  - rewrite upd_nth_error_neq by auto. apply ws_of_nth.
Qed.
End WsOf.

Section Unlinear.
Context {A X : Type}.
Variables (c : cfg) (E : effects A X) (f : A -> X -> outcome X) (chunks : list (list A)).
Hypothesis Hpool : c_pool c = false.
Hypothesis Htrial : forall y v, e_trial E y v = Ret (v, true).
Hypothesis Hwork : forall d pos y v, nth_error d pos = Some y -> e_work E d pos v (f y v).
Hypothesis Htick : forall n v, e_tick E n v = Ret v.
Hypothesis Hg : length chunks <= c_g c.
Variable iter : nat.
Let mk := fun _ : nat => Mem chunks.

Definition leads (s : st A) (v : X) (s' : st A) (v' : X) : Prop :=
  forall n l0 v0 l, vruns c E iter mk n l0 v0 (l ++ [s]) v -> exists m, vruns c E iter mk m l0 v0 (l ++ [s']) v'.

Lemma leads_refl s v : leads s v s v.
Proof. intros n l0 v0 l H. eauto. Qed.
Lemma leads_trans s v s1 v1 s2 v2 : leads s v s1 v1 -> leads s1 v1 s2 v2 -> leads s v s2 v2.
Proof. intros H1 H2 n l0 v0 l H. destruct (H1 n l0 v0 l H) as (m & Hm). apply (H2 m l0 v0 l Hm). Qed.
Lemma leads_step s v s' v' : vstep c E s v (Ret (s', v')) -> leads s v s' v'.
Proof.
  intros HS n l0 v0 l H. exists (S n). econstructor; [exact H|]. exact (vr_inner c E iter mk l s [] v _ HS).
Qed.
Lemma leads_quiet s s' v : step c s s' -> quiet s s' -> leads s v s' v.
Proof. intros H1 H2. apply leads_step. constructor; auto. Qed.

Lemma leads_spawn v : forall rest pre n k, k = c_g c ->
  leads (St (Mem rest) MLoop (map (fun d => Worker d WNew) pre) (ORecv n) 0 k (length pre) false false []) v
        (St (Mem []) MLoop (map (fun d => Worker d WNew) (pre ++ rest)) (ORecv n) 0 k (length (pre ++ rest)) false false []) v.
Proof using Type. clear Hpool Htrial Hwork Htick Hg f.
  induction rest as [|d rest IH]; intros pre n k Hk.
  - rewrite app_nil_r. apply leads_refl.
  - eapply leads_trans.
    + apply leads_quiet; [eapply s_spawn_mem; reflexivity|]. split; [reflexivity|]. split; [cbn; lia|]. intros ? H; discriminate H.
    + cbn [wks obs sem pool wg tclosed log].
      specialize (IH (pre ++ [d]) n k Hk). rewrite map_app, <- app_assoc, app_length in IH. cbn [map app length] in IH. rewrite Nat.add_1_r in IH. exact IH.
Qed.

Definition mid (ws : nat -> list A -> wstep A) (o sm w : nat) (lg : list (nat * A)) : st A :=
  St (Mem []) MWait (ws_of chunks ws) (ORecv o) sm (c_g c) w false false lg.

Lemma mid_ext ws ws' o sm w lg : (forall i d, nth_error chunks i = Some d -> ws i d = ws' i d) -> mid ws o sm w lg = mid ws' o sm w lg.
Proof. intros H. unfold mid. rewrite (ws_of_ext chunks ws ws' H). reflexivity. Qed.

Lemma set_mid ws o sm w lg i d st' : nth_error chunks i = Some d ->
  set_w (mid ws o sm w lg) i st' = ws_of chunks (fun j e => if j =? i then st' else ws j e).
Proof.
  intros Hi. unfold set_w. cbn [wks mid]. rewrite ws_of_nth, Hi. cbn [option_map w_doc]. apply ws_of_upd. exact Hi.
Qed.

Lemma chunk_at i : i < length chunks -> exists d, nth_error chunks i = Some d.
Proof using Type. clear Hpool Htrial Hwork Htick Hg f. intros H. destruct (nth_error chunks i) eqn:Q; eauto. apply nth_error_None in Q. lia. Qed.

Lemma leads_acquire v : forall k, k <= length chunks ->
  leads (mid (fun _ _ => WNew) 0 0 (length chunks) []) v (mid (fun j d => if j <? k then WRun d else WNew) 0 k (length chunks) []) v.
Proof using Hg. clear Hpool Htrial Hwork Htick f.
  induction k as [|k IH]; intros Hk; [apply leads_refl|].
  eapply leads_trans; [apply IH; lia|]. destruct (chunk_at k ltac:(lia)) as (d & Hd).
  set (s := mid (fun j d => if j <? k then WRun d else WNew) 0 k (length chunks) []).
  replace (mid (fun j d => if j <? S k then WRun d else WNew) 0 (S k) (length chunks) [])
    with (St (src s) (main s) (set_w s k (WRun d)) (obs s) (S (sem s)) (pool s) (wg s) (tclosed s) false (log s)).
  - apply leads_quiet.
    + apply s_acquire; [reflexivity| |cbn; lia]. unfold s. cbn [wks mid]. rewrite ws_of_nth, Hd. cbn [option_map]. rewrite Nat.ltb_irrefl. reflexivity.
    + split; [reflexivity|]. split; [cbn; lia|]. intros ? H; discriminate H.
  - unfold s. rewrite (set_mid _ _ _ _ _ _ d) by exact Hd. cbn [src main obs sem pool wg tclosed log mid]. unfold mid. f_equal.
    apply ws_of_ext. intros j e He. destruct (Nat.eqb_spec j k) as [->|N].
    + rewrite Hd in He. injection He as ->. destruct (Nat.ltb_spec k (S k)); [reflexivity|lia].
    + destruct (Nat.ltb_spec j k), (Nat.ltb_spec j (S k)); auto; lia.
Qed.

Lemma leads_work : forall p v v' o lg, ofold f (map snd p) v = Ret v' -> Forall (fun q => fst q < length chunks) p ->
  (forall i d, nth_error chunks i = Some d -> exists done, d = done ++ by_worker i p) ->
  leads (mid (fun j _ => WRun (by_worker j p)) o (length chunks) (length chunks) lg) v
        (mid (fun j _ => WRun []) (o + length p) (length chunks) (length chunks) (lg ++ p)) v'.
Proof.
  induction p as [|[i y] p IH]; intros v v' o lg HF HI HD.
  - cbn in HF. injection HF as <-. rewrite app_nil_r. cbn [length]. rewrite Nat.add_0_r. apply leads_refl.
  - cbn [map snd ofold] in HF. destruct (f y v) as [v1| |] eqn:Ef; try discriminate. cbn [obind] in HF.
    inversion HI as [|? ? Hi HI']; subst. cbn [fst] in Hi. destruct (chunk_at i Hi) as (d & Hd). destruct (HD i d Hd) as (done & Ed).
    assert (Bi : by_worker i ((i, y) :: p) = y :: by_worker i p) by (unfold by_worker; cbn [filter fst]; rewrite Nat.eqb_refl; reflexivity).
    assert (Bj : forall j, j <> i -> by_worker j ((i, y) :: p) = by_worker j p).
    { intros j Hj. unfold by_worker. cbn [filter fst]. destruct (Nat.eqb_spec i j); [lia|reflexivity]. }
    rewrite Bi in Ed. set (t := by_worker i p) in *. set (G := length chunks) in *.
    set (s0 := mid (fun j _ => WRun (by_worker j ((i, y) :: p))) o G G lg).
    set (s1 := mid (fun j _ => if j =? i then WSend t else WRun (by_worker j p)) o G G (lg ++ [(i, y)])).
    set (s2 := mid (fun j _ => WRun (by_worker j p)) (S o) G G (lg ++ [(i, y)])).
    apply leads_trans with (s1 := s1) (v1 := v1).
    { apply leads_step.
      assert (W : nth_error (wks s0) i = Some (Worker d (WRun (y :: t)))).
      { unfold s0. cbn [wks mid]. rewrite ws_of_nth, Hd. cbn [option_map]. rewrite Bi. reflexivity. }
      assert (Er : e_work E d (length d - S (length t)) v (f y v)).
      { apply Hwork. rewrite Ed. rewrite app_length. cbn [length]. replace (length done + S (length t) - S (length t)) with (length done) by lia.
        rewrite nth_error_app2, Nat.sub_diag by lia. reflexivity. }
      pose proof (v_train c E s0 i d y t v v _ eq_refl W Hpool (Htrial y v) Er) as HV. rewrite Ef in HV. cbn [obind] in HV.
      match type of HV with vstep _ _ _ _ (Ret (?q, _)) => replace s1 with q; [exact HV|] end.
      unfold s0. rewrite (set_mid _ _ _ _ _ _ d) by exact Hd. cbn [src main obs sem pool wg tclosed log mid]. unfold s1, mid. f_equal.
      apply ws_of_ext. intros j e _. destruct (Nat.eqb_spec j i) as [|N]; [reflexivity|]. rewrite Bj by auto. reflexivity. }
    apply leads_trans with (s1 := s2) (v1 := v1).
    { set (s15 := St (Mem []) MWait (wks s2) (OBusy (S o)) G (c_g c) G false false (lg ++ [(i, y)])).
      apply leads_trans with (s1 := s15) (v1 := v1).
      - assert (W : nth_error (wks s1) i = Some (Worker d (WSend t))).
        { unfold s1. cbn [wks mid]. rewrite ws_of_nth, Hd. cbn [option_map]. rewrite Nat.eqb_refl. reflexivity. }
        pose proof (s_tick c s1 i t o eq_refl (ex_intro _ d W) eq_refl eq_refl) as HT.
        match type of HT with step _ _ ?q => replace s15 with q end.
        + apply leads_quiet; [exact HT|]. split; [reflexivity|]. split; [cbn; lia|]. intros ? H; discriminate H.
        + unfold s1. rewrite (set_mid _ _ _ _ _ _ d) by exact Hd. cbn [src main obs sem pool wg tclosed log mid]. unfold s15, s2. cbn [wks mid]. f_equal.
          apply ws_of_ext. intros j e _. destruct (Nat.eqb_spec j i) as [->|N]; reflexivity.
      - apply leads_step. pose proof (v_tick c E s15 (S o) v1 _ eq_refl eq_refl (Htick (S o) v1)) as HT. cbn [obind] in HT. exact HT. }
    specialize (IH v1 v' (S o) (lg ++ [(i, y)]) HF HI'). rewrite <- app_assoc in IH. cbn [app] in IH. cbn [length]. rewrite <- Nat.add_succ_comm. apply IH.
    intros j e He. destruct (HD j e He) as (dn & De). destruct (Nat.eq_dec j i) as [->|N].
    + rewrite Bi in De. exists (dn ++ [y]). rewrite <- app_assoc. exact De.
    + rewrite Bj in De by auto. eauto.
Qed.

Lemma leads_finish v o lg : forall k, k <= length chunks ->
  leads (mid (fun _ _ => WRun []) o (length chunks) (length chunks) lg) v
        (mid (fun j _ => if j <? k then WRel else WRun []) o (length chunks) (length chunks - k) lg) v.
Proof using Type. clear Hpool Htrial Hwork Htick Hg f.
  induction k as [|k IH]; intros Hk.
  { rewrite Nat.sub_0_r. apply leads_refl. }
  eapply leads_trans; [apply IH; lia|]. destruct (chunk_at k ltac:(lia)) as (d & Hd).
  set (s := mid (fun j _ => if j <? k then WRel else WRun []) o (length chunks) (length chunks - k) lg).
  assert (W : nth_error (wks s) k = Some (Worker d (WRun []))).
  { unfold s. cbn [wks mid]. rewrite ws_of_nth, Hd. cbn [option_map]. rewrite Nat.ltb_irrefl. reflexivity. }
  pose proof (s_done c s k eq_refl (ex_intro _ d W) ltac:(cbn; lia)) as HT.
  match type of HT with step _ _ ?q => match goal with |- leads _ _ ?r _ => replace r with q end end.
  - apply leads_quiet; [exact HT|]. split; [reflexivity|]. split; [cbn; lia|]. intros ? H; discriminate H.
  - unfold s. rewrite (set_mid _ _ _ _ _ _ d) by exact Hd. cbn [src main obs sem pool wg tclosed log mid]. unfold mid. f_equal; [|lia].
    apply ws_of_ext. intros j e He. destruct (Nat.eqb_spec j k) as [->|N].
    + destruct (Nat.ltb_spec k (S k)); [reflexivity|lia].
    + destruct (Nat.ltb_spec j k), (Nat.ltb_spec j (S k)); auto; lia.
Qed.

Lemma leads_pass p v v' : interleaves chunks p -> ofold f (map snd p) v = Ret v' ->
  exists s, main s = MDone /\ leads (init c (Mem chunks)) v s v'.
Proof.
  intros (HI & HD) HF.
  set (fin := mid (fun j _ => if j <? length chunks then WRel else WRun []) (0 + length p) (length chunks) 0 ([] ++ p)).
  exists (St (Mem []) MDone (wks fin) (obs fin) (sem fin) (pool fin) (wg fin) true false (log fin)). split; [reflexivity|].
  eapply leads_trans; [apply (leads_spawn v chunks [] 0 (c_g c) eq_refl)|]. cbn [app].
  apply leads_trans with (s1 := mid (fun _ _ => WNew) 0 0 (length chunks) []) (v1 := v).
  { match goal with |- leads ?a _ _ _ => pose proof (s_mem_end c a eq_refl eq_refl eq_refl) as HT end. cbn [wks obs sem pool wg tclosed log] in HT.
    replace (map (fun d => Worker d WNew) chunks) with (ws_of chunks (fun _ _ => WNew)) in *.
    - apply leads_quiet; [exact HT|]. split; [reflexivity|]. split; [cbn; lia|]. intros ? H; discriminate H.
    - apply nth_ext_error. intros i. rewrite ws_of_nth, nth_error_map. destruct (nth_error chunks i); reflexivity. }
  eapply leads_trans; [apply (leads_acquire v (length chunks) (Nat.le_refl _))|].
  rewrite (mid_ext _ (fun j _ => WRun (by_worker j p))).
  2:{ intros i d Hd. assert (i < length chunks) by (apply nth_error_Some; congruence). destruct (Nat.ltb_spec i (length chunks)); [|lia]. rewrite (HD i d Hd). reflexivity. }
  eapply leads_trans; [apply (leads_work p v v' 0 [] HF HI)|].
  { intros i d Hd. exists []. rewrite (HD i d Hd). reflexivity. }
  eapply leads_trans; [apply (leads_finish v' _ _ (length chunks) (Nat.le_refl _))|]. rewrite Nat.sub_diag.
  apply leads_quiet; [apply (s_wait c fin); reflexivity|]. split; [reflexivity|]. split; [cbn; lia|]. intros ? H; discriminate H.
Qed.

Lemma passes_run : forall ps n l0 v0 l v v', Forall (interleaves chunks) ps -> ofold f (concat (map (map snd) ps)) v = Ret v' ->
  vruns c E iter mk n l0 v0 (l ++ [init c (Mem chunks)]) v -> S (length l) + length ps <= S iter -> 1 <= length ps ->
  exists m l' s, vruns c E iter mk m l0 v0 (l' ++ [s]) v' /\ main s = MDone /\ S (length l') = length l + length ps.
Proof.
  induction ps as [|p ps IH]; intros n l0 v0 l v v' HF HO HR HL H1; [cbn in H1; lia|].
  inversion HF as [|? ? Hp HF']; subst. cbn [map concat] in HO. rewrite ofold_app in HO.
  destruct (ofold f (map snd p) v) as [v1| |] eqn:E1; try discriminate. cbn [obind] in HO.
  destruct (leads_pass p v v1 Hp E1) as (s & Hm & HLd). destruct (HLd n l0 v0 l HR) as (m & Hm1).
  destruct ps as [|p2 ps].
  - cbn in HO. injection HO as <-. exists m, l, s. cbn [length]. split; [exact Hm1|]. split; [exact Hm|]. lia.
  - assert (HN : vruns c E iter mk (S m) l0 v0 ((l ++ [s]) ++ [init c (Mem chunks)]) v1).
    { econstructor; [exact Hm1|]. pose proof (vr_next c E iter mk l s v1 Hm) as N. rewrite <- app_assoc. apply N. rewrite app_length. cbn [length] in HL |- *. lia. }
    destruct (IH _ _ _ (l ++ [s]) v1 v' HF' HO HN) as (m2 & l2 & s2 & R2 & M2 & L2); [rewrite app_length; cbn [length] in *; lia|cbn; lia|].
    exists m2, l2, s2. split; [exact R2|]. split; [exact M2|]. rewrite L2, app_length. cbn [length]. lia.
Qed.

Lemma interleaved_trains ps v0 v : length ps = iter -> Forall (interleaves chunks) ps -> ofold f (concat (map (map snd) ps)) v0 = Ret v ->
  trains c E iter mk v0 v.
Proof.
  intros HL HF HO. unfold trains, reaches. destruct (Nat.eqb_spec iter 0) as [E0|N].
  - assert (ps = []) as -> by (destruct ps; auto; cbn in HL; lia). cbn in HO. injection HO as <-. exists []. split; [auto|]. split; auto.
  - destruct (passes_run ps 0 [init c (mk 0)] v0 [] v0 v HF HO) as (m & l' & s & HR & Hm & HL'); [constructor|cbn; lia|lia|].
    exists (l' ++ [s]). split; [exists m; exact HR|]. split; [rewrite app_length; cbn [length] in *; lia|]. right. eauto.
Qed.
End Unlinear.
