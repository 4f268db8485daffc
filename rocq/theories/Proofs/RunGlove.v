(** * Whole runs of GloVe *)
From Coq Require Import Lia Permutation Reals.
From Verif.Lib Require Import Go F64 F64Facts ListFacts Tac.
From Verif.Spec Require Import Words Tokens Window Filter Slices Rows Readable Runs Sched.
From Verif.Model Require Import Dictionary Encode Cooc Reader Corpus ModelUtil Matrix Glove Options Train Sched Run.
From Verif.Proofs Require Import Dictionary Encode Cooc Corpus ModelUtil Items AdaGrad Train TrainProps Sched SchedRun.
From Verif.Proofs Require Run RunSeq RunSetup RunModels.
Local Open Scope Z_scope.

(** The keys of the matrix are encodings of the pairs that were added. *)
Lemma mset_key {V} k v (m : list (Z * V)) x : In x (map fst (mset Z.eq_dec k v m)) -> x = k \/ In x (map fst m).
Proof.
  rewrite mset_keys. destruct (in_dec _ _ _); [auto|]. intros H. apply in_app_or in H. destruct H as [|[|[]]]; auto.
Qed.

Lemma co_add_key c a b x : In x (map fst (co_ma (fst (co_add c a b)))) -> x = encode_bigram (wrap64 a) (wrap64 b) \/ In x (map fst (co_ma c)).
Proof.
  unfold co_add. cbv zeta. destruct (String.eqb _ increment); cbn [fst co_ma]; [apply mset_key|].
  destruct (String.eqb _ proximity); [|auto]. destruct (_ =? 0); [auto|]. cbn [fst co_ma]. apply mset_key.
Qed.

Lemma adds_key : forall adds c x, In x (map fst (co_ma (fst (for_each (fun c p => co_add c (fst p) (snd p)) c adds)))) ->
  In x (map fst (co_ma c)) \/ exists p, In p adds /\ x = encode_bigram (wrap64 (fst p)) (wrap64 (snd p)).
Proof.
  induction adds as [|p adds IH]; intros c x H; [left; exact H|]. cbn [for_each] in H.
  pose proof (co_add_key c (fst p) (snd p) x) as K. destruct (co_add c (fst p) (snd p)) as [c' [u|e|]]; cbn [fst] in *.
  - destruct (IH c' x H) as [H1|(q & H1 & H2)]; [|right; exists q; split; [right; exact H1|exact H2]].
    destruct (K H1) as [->|H2]; [right; exists p; split; [left; reflexivity|reflexivity]|left; exact H2].
  - destruct (K H) as [->|H2]; [right; exists p; split; [left; reflexivity|reflexivity]|left; exact H2].
  - destruct (K H) as [->|H2]; [right; exists p; split; [left; reflexivity|reflexivity]|left; exact H2].
Qed.

Lemma raw_id_lt (lw : list gostring) w : lw <> [] -> (raw_id lw w < length (distinct lw))%nat.
Proof.
  intros Hn. unfold raw_id. destruct (in_dec _ _ _) as [H|H]; [apply word_id_lt; exact H|].
  destruct lw as [|a lw]; [contradiction|]. pose proof (word_id_lt (a :: lw) a (or_introl eq_refl)). lia.
Qed.

Lemma fed_lt lower mem lc win all : mem = true \/ all <> [] ->
  let V := Z.of_nat (length (distinct (lowered lower lc all))) in
  Forall (fun p => 0 <= fst p < V /\ 0 <= snd p < V) (fed_pairs lower mem lc win all).
Proof.
  intros Hm V. unfold fed_pairs. set (lw := lowered lower lc all) in *. apply Forall_forall. intros q Hq.
  destruct mem; apply in_map_iff in Hq; destruct Hq as (p & <- & Hp); cbn [fst snd].
  - apply In_window in Hp. destruct Hp as (H1 & H2). apply word_id_lt in H1, H2. unfold V. lia.
  - destruct Hm as [|Hm]; [discriminate|].
    assert (Hn : lw <> []). { unfold lw, lowered. destruct lc, all; cbn; congruence. }
    pose proof (raw_id_lt lw (fst p) Hn). pose proof (raw_id_lt lw (snd p) Hn). unfold V. lia.
Qed.

(** At most V * V keys. *)
Lemma keys_count V keys : NoDup keys -> (forall k, In k keys -> exists a b, (a < V)%nat /\ (b < V)%nat /\ k = encode_bigram (Z.of_nat a) (Z.of_nat b)) ->
  (length keys <= V * V)%nat.
Proof.
  intros N H. set (all := map (fun p => encode_bigram (Z.of_nat (fst p)) (Z.of_nat (snd p))) (list_prod (seq 0 V) (seq 0 V))).
  transitivity (length all).
  - apply NoDup_incl_length; [exact N|]. intros k Hk. destruct (H k Hk) as (a & b & Ha & Hb & ->).
    unfold all. apply in_map_iff. exists (a, b). split; [reflexivity|]. apply in_prod; apply in_seq; lia.
  - unfold all. rewrite map_length, prod_length, !seq_length. lia.
Qed.

Section Glv.
Variables (lower : gostring -> gostring) (rand : nat -> f64) (flog : f64 -> f64) (fpow : f64 -> f64 -> f64)
  (order : list (Z * f64) -> list (Z * f64)) (o : glv_opts) (doc : reader) (all : list gostring).
Hypothesis HU : glv_usable lower o doc all.
Hypothesis HP : forall m, Permutation (order m) m.
Let lw := used_words lower (glv_ToLower o) all.
Let d := dict_add dict_new lw.
Let V := length (distinct lw).
Let dim := Z.to_nat (glv_Dim o).

Lemma gl_dim : Z.of_nat dim = glv_Dim o. Proof. apply Z2Nat.id. apply (gu_dim _ _ _ _ HU). Qed.
Lemma gl_V : Z.of_nat V * Z.of_nat V + glv_Goroutines o <= 2 ^ 53. Proof. exact (gu_words _ _ _ _ HU). Qed.
Lemma gl_V32 : Z.of_nat V < 2 ^ 32. Proof. pose proof gl_V. pose proof (gu_g _ _ _ _ HU). nia. Qed.

Lemma glv_ready co : co_new (glv_CountType o) = Ret co ->
  let run := for_each (fun c p => co_add c (fst p) (snd p)) co (fed_pairs lower (glv_DocInMemory o) (glv_ToLower o) (glv_Window o) all) in
  exists rows sol, all_len (S dim) rows /\ length rows = (2 * V)%nat /\ sol_ok dim (2 * V) sol /\
  glv_setup lower rand flog fpow order o doc = obind (snd run) (fun _ =>
    Ret (Glv d (of_rows (S dim) rows) sol (map (make_item flog fpow (glv_Xmax o) (glv_Alpha o)) (order (co_ma (fst run)))))).
Proof.
  intros Hco run. pose proof (dict_len_distinct lw) as DL. fold d V in DL.
  destruct (glv_setup_prefix lower rand flog fpow order o doc all (gu_text _ _ _ _ HU) (gu_dim _ _ _ _ HU) (or_intror (gu_window _ _ _ _ HU)) co Hco)
    as (rows & L & A & _ & E).
  change (lowered lower (glv_ToLower o) all) with lw in L, A, E. fold d in L, A, E. fold dim in L, A, E. fold run in E.
  assert (HSol : exists sol, sol_ok dim (2 * V) sol /\
     (if String.eqb (glv_SolverType o) sgd_type then Ret Stochastic
         else if String.eqb (glv_SolverType o) adagrad_type then
           obind (new_adagrad (Z.of_nat (dict_len d)) (glv_Dim o)) (fun g => Ret (AdaGrad g))
         else Err "invalid solver") = Ret sol).
  { destruct (gu_solver _ _ _ _ HU) as [<-|[<-|[]]].
    - exists Stochastic. split; [exact I|reflexivity].
    - destruct (mat_ones V dim) as (gs & Eg & Ag & Lg & _). exists (AdaGrad (of_rows (S dim) gs)). split; [exists gs; auto|].
      change (String.eqb "adagrad" sgd_type) with false. change (String.eqb "adagrad" adagrad_type) with true. cbv iota.
      rewrite DL, <- gl_dim, Eg. reflexivity. }
  destruct HSol as (sol & Hsol & Es). rewrite Es in E. cbn [obind] in E.
  exists rows, sol. split; [exact A|]. split; [lia|]. split; [exact Hsol|exact E].
Qed.

Lemma glv_inc_ready : glv_CountType o = "inc"%string -> exists g0, glv_setup lower rand flog fpow order o doc = Ret g0.
Proof.
  intros Hi. destruct (glv_ready {| co_typ := increment; co_ma := [] |}) as (rows & sol & _ & _ & _ & E); [rewrite Hi; reflexivity|].
  rewrite inc_run in E by reflexivity. cbn [obind] in E. eauto.
Qed.

Variable g0 : glv.
Hypothesis HS : glv_setup lower rand flog fpow order o doc = Ret g0.

Lemma glv_ready_g0 : exists rows, gl_dic g0 = d /\ gl_param g0 = of_rows (S dim) rows /\ all_len (S dim) rows /\ length rows = (2 * V)%nat /\
  sol_ok dim (2 * V) (gl_solver g0) /\ Forall (item_in V) (gl_items g0) /\ Z.of_nat (length (gl_items g0)) <= Z.of_nat V * Z.of_nat V.
Proof.
  destruct (co_new_cases (glv_CountType o)) as [(co & Hco & Eco & _)|(N1 & N2)].
  2:{ rewrite (glv_bad_count lower rand flog fpow order o doc all (gu_text _ _ _ _ HU) N1 N2) in HS. discriminate. }
  destruct (glv_ready co Hco) as (rows & sol & A & L & Hs & E). cbv zeta in E. rewrite HS in E.
  set (run := for_each _ co _) in *. destruct (snd run) as [u|e|] eqn:Er; cbn [obind] in E; try discriminate. injection E as ->.
  cbn [gl_dic gl_param gl_solver gl_items]. exists rows. split; [reflexivity|]. split; [reflexivity|]. split; [exact A|]. split; [exact L|]. split; [exact Hs|].
  pose proof gl_V32 as V32.
  pose proof (fed_lt lower (glv_DocInMemory o) (glv_ToLower o) (glv_Window o) all (gu_words1 _ _ _ _ HU)) as FL. cbv zeta in FL.
  change (lowered lower (glv_ToLower o) all) with lw in FL. fold V in FL.
  assert (W : ma_wf (co_ma (fst run))).
  { apply (adds_wf (glv_CountType o)); [exact Hco|]. eapply Forall_impl; [|exact FL]. cbn beta. intros p Hp. unfold in32. lia. }
  pose proof (ma_wf_perm _ _ (HP _) W) as W'.
  assert (KEY : forall k, In k (map fst (order (co_ma (fst run)))) -> exists a b, 0 <= a < Z.of_nat V /\ 0 <= b < Z.of_nat V /\ k = encode_bigram a b).
  { intros k Hk. assert (Hk' : In k (map fst (co_ma (fst run)))) by (eapply Permutation_in; [apply Permutation_map, HP|exact Hk]).
    destruct (adds_key _ _ _ Hk') as [H|(p & Hp & ->)]; [rewrite Eco in H; destruct H|].
    rewrite Forall_forall in FL. specialize (FL p Hp). exists (fst p), (snd p).
    rewrite !wrap64_small by (unfold in32; lia). tauto. }
  split.
  - apply Forall_forall. intros it Hit. apply in_map_iff in Hit. destruct Hit as ([k f] & <- & Hkf).
    destruct (decode_wf _ k W' (in_map fst _ _ Hkf)) as (a & b & Ha & Hb & Hab & D & W1 & W2 & Ek).
    destruct (KEY k (in_map fst _ _ Hkf)) as (a' & b' & Ha' & Hb' & Ek').
    rewrite Ek' in D. rewrite decode_encode in D by (unfold two32; lia). injection D as D1 D2.
    unfold make_item, item_in. rewrite Ek', decode_encode by (unfold two32; lia). cbn [it_l1 it_l2]. rewrite D1, D2, W1, W2. lia.
  - rewrite map_length, <- (map_length fst). rewrite <- Nat2Z.inj_mul. apply Nat2Z.inj_le. apply keys_count; [apply W'|].
    intros k Hk. destruct (KEY k Hk) as (a & b & Ha & Hb & ->). exists (Z.to_nat a), (Z.to_nat b). rewrite !Z2Nat.id by lia. split; [lia|]. split; [lia|reflexivity].
Qed.

Lemma glv_source_ok : exists x, glv_source o g0 = Ret x.
Proof.
  destruct glv_ready_g0 as (_ & _ & _ & _ & _ & _ & _ & HL). pose proof gl_V. unfold glv_source.
  destruct (index_per_thread_lemma (glv_Goroutines o) (Z.of_nat (length (gl_items g0))) (gu_g _ _ _ _ HU) ltac:(lia) ltac:(lia)) as (bounds & E & _).
  rewrite E. cbn [obind]. eauto.
Qed.

Variable x : source item.
Hypothesis Hx : glv_source o g0 = Ret x.

Lemma glv_chunks : Run.src_ok x /\ concat (pending x) = gl_items g0 /\ length (pending x) = Z.to_nat (glv_Goroutines o) /\
  Forall (Forall (item_in V)) (pending x).
Proof.
  destruct glv_ready_g0 as (_ & _ & _ & _ & _ & _ & HI & HL). pose proof gl_V. unfold glv_source in Hx.
  destruct (index_per_thread_lemma (glv_Goroutines o) (Z.of_nat (length (gl_items g0))) (gu_g _ _ _ _ HU) ltac:(lia) ltac:(lia)) as (bounds & E & _ & _ & _ & _ & HSl).
  rewrite E in Hx. cbn [obind] in Hx. injection Hx as <-. destruct (HSl _ (gl_items g0) eq_refl) as (L & C). cbn [pending].
  split; [split; [discriminate|exact I]|]. split; [exact C|]. split; [exact L|]. rewrite <- Forall_concat, C. exact HI.
Qed.

Definition gl_shape (v : matrix * solver) : Prop :=
  exists rows, fst v = of_rows (S dim) rows /\ all_len (S dim) rows /\ length rows = (2 * V)%nat /\ sol_ok dim (2 * V) (snd v).

Let E := glv_effects o (Z.of_nat (dict_len (gl_dic g0))).

Lemma gl_work_ok dd pos v r : gl_shape v -> Forall (item_in V) dd -> (pos < length dd)%nat -> e_work E dd pos v r -> exists v', r = Ret v' /\ gl_shape v'.
Proof.
  intros (rows & Em & A & L & Hs) HD Hpos. cbn [E glv_effects e_work]. destruct (nth_error dd pos) as [it|] eqn:En; [|apply nth_error_None in En; lia].
  intros ->. destruct glv_ready_g0 as (_ & Ed & _). rewrite Ed. unfold d. rewrite dict_len_distinct. fold V.
  destruct v as [m sol]. cbn [fst snd] in *. subst m.
  destruct (item_call (glv_Initlr o) dim V rows it sol A L) as (rows' & s' & E1 & A' & L' & S' & _).
  { rewrite L. exact Hs. } { rewrite Forall_forall in HD. apply HD. eapply nth_error_In; eauto. }
  exists (of_rows (S dim) rows', s'). split; [exact E1|]. exists rows'. cbn [fst snd]. split; [reflexivity|]. split; [exact A'|]. split; [lia|]. rewrite <- L. exact S'.
Qed.

Lemma gl_tick_ok n v : e_tick E n v = Ret v.
Proof. cbn [E glv_effects e_tick]. destruct (gu_text _ _ _ _ HU) as ([Hv|Hl] & _); [rewrite Hv; reflexivity|].
  destruct (Z.eqb_spec (glv_LogBatch o) 0); [contradiction|]. rewrite andb_false_r. reflexivity. Qed.

Lemma gl_start_shape : gl_shape (gl_param g0, gl_solver g0).
Proof. destruct glv_ready_g0 as (rows & _ & Em & A & L & Hs & _). exists rows. auto. Qed.

Lemma glv_run iter l v : reaches (glv_cfg o) E iter (fun _ => x) (gl_param g0, gl_solver g0) l v ->
  gl_shape v /\ forall r, vrun_step (glv_cfg o) E iter (fun _ => x) l v r -> exists p, r = Ret p.
Proof.
  intros HR. apply (Run.reach_total (glv_cfg o) E iter x gl_shape (proj1 glv_chunks)) with (v0 := (gl_param g0, gl_solver g0)); auto.
  - intros y v1 Hs _. exists v1, true. auto.
  - intros dd pos v1 r Hs Hd Hp Hw. apply (gl_work_ok dd pos v1 r Hs); auto. destruct glv_chunks as (_ & _ & _ & F). rewrite Forall_forall in F. auto.
  - intros n v1 Hv _. exists v1. split; [apply gl_tick_ok|exact Hv].
  - apply gl_start_shape.
Qed.

Lemma gl_total dd pos v : exists r, e_work E dd pos v r.
Proof. cbn [E glv_effects e_work]. destruct (nth_error dd pos); eauto. Qed.
Lemma glv_c_g : (0 < c_g (glv_cfg o))%nat.
Proof. pose proof (gu_g _ _ _ _ HU). cbn. lia. Qed.
Lemma gl_skip : c_skip (glv_cfg o) = false -> forall y v v', e_trial E y v <> Ret (v', false).
Proof. intros _ y v v' H. discriminate. Qed.

Lemma glv_ends iter v0 : ends_within (glv_cfg o) E iter (fun _ => x) v0 (iter * (4 * length (concat (pending x)) + 5 * length (pending x) + 6)).
Proof. apply RunModels.ends_lemma; [apply glv_c_g|apply glv_chunks|exact gl_skip|exact gl_total|apply RunModels.source_bound]. Qed.

Lemma glv_never iter : never_fails (glv_cfg o) E iter (fun _ => x) (gl_param g0, gl_solver g0).
Proof. intros l v r HR HV. exact (proj2 (glv_run iter l v HR) r HV). Qed.

Lemma glv_completes iter : exists v, trains (glv_cfg o) E iter (fun _ => x) (gl_param g0, gl_solver g0) v.
Proof. apply RunModels.completes_lemma; [apply glv_c_g|apply glv_chunks|exact gl_skip|exact gl_total|apply glv_never]. Qed.
End Glv.
