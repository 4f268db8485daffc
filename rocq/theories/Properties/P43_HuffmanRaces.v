(** * C107: word2vec with hierarchical softmax and several goroutines, statement by statement

    Model/RaceHS.v: every access to a shared number, node or slice header is a step of its own. *)
From Coq Require Import Lia.
From Verif.Lib Require Import Go F64 F64Facts.
From Verif.Spec Require Import Words Tokens Readable Runs Rows Sequential OneGoroutine Race RaceHS.
From Verif.Model Require Import Dictionary Reader Corpus Matrix Huffman Subsample Sigmoid Word2vec Options Train Sched Run RaceHS.
From Verif.Proofs Require RaceHSRuns RaceHSSeq RaceHSSafe W2vProps RunW2v TrainOne TrainProps.
From Verif.Properties Require P23_Runs P36_Schedules.
Local Open Scope Z_scope.

(** word2vec on "a b a b" with hierarchical softmax, two goroutines, the text in memory: each goroutine gets "a b". *)
Definition hs_opts : w2v_opts := w2v_new 2 [W_Dim 1; W_MinCount 0; W_DocInMemory; W_Iter 1; W_Optimizer "hs"; W_Window 1; W_Model "skipgram"].

Lemma hs_opts_usable : w2v_usable (fun w => w) hs_opts P36_Schedules.abab P36_Schedules.abab_words.
Proof. constructor; cbn -[Z.mul Z.pow]; auto using P36_Schedules.abab_readable; try lia; try tauto; vm_compute; (reflexivity || discriminate). Qed.

(** C107. Train can crash on a usable text and usable options: after some interleaving a goroutine's next
    statement panics, whatever math.Exp computes. *)
Theorem C107_can_crash : forall exp lr, let id := fun w : gostring => w in let rand := fun _ : nat => fzero in
  w2v_usable id hs_opts P36_Schedules.abab P36_Schedules.abab_words /\
  exists w0 x tree set d s, w2v_setup id rand hs_opts P36_Schedules.abab = Ret w0 /\ w2v_source id hs_opts w0 = Ret x /\ wv_opt w0 = HS tree set d /\
    parts x = [[0; 1]; [0; 1]]%nat /\
    hruns (HSys (hs_mem 1 lr (wv_param w0) tree) (hs_workers (sigmoid (sig_table exp)) hs_opts w0 [fzero] (parts x))) s /\ hstep s Panic.
Proof.
  intros exp lr id rand. split; [exact hs_opts_usable|].
  pose (sched := (repeat 0 7 ++ repeat 1 14 ++ [0])%nat).
  assert (E : match w2v_setup id rand hs_opts P36_Schedules.abab with
    | Ret w0 => match w2v_source id hs_opts w0, wv_opt w0 with
        | Ret x, HS tree set d => parts x = [[0; 1]; [0; 1]]%nat /\
            match RaceHSRuns.follow sched (HSys (hs_mem 1 lr (wv_param w0) tree) (hs_workers (sigmoid (sig_table exp)) hs_opts w0 [fzero] (parts x))) with
            | Ret s => match nth_error (hy_threads s) 1 with
                       | Some p => match hexec fzero (hy_mem s) p with Panic => hdone p = false | _ => False end | None => False end
            | _ => False end
        | _, _ => False end
    | _ => False end) by (vm_compute; auto).
  destruct (w2v_setup id rand hs_opts P36_Schedules.abab) as [w0|e|]; [|contradiction|contradiction].
  destruct (w2v_source id hs_opts w0) as [x|e|] eqn:Ex; [|contradiction|contradiction]. destruct (wv_opt w0) as [|tree set d] eqn:Eo; [contradiction|].
  destruct E as (Ep & E).
  destruct (RaceHSRuns.follow sched _) as [s|e|] eqn:EF; [|contradiction|contradiction].
  destruct (nth_error (hy_threads s) 1) as [p|] eqn:En; [|contradiction]. destruct (hexec fzero (hy_mem s) p) as [r|e|] eqn:EX; [contradiction|contradiction|].
  exists w0, x, tree, set, d, s. split; [reflexivity|]. split; [exact Ex|]. split; [exact Eo|]. split; [exact Ep|].
  split; [exact (RaceHSRuns.follow_runs _ _ _ EF)|]. destruct s as [m ts]. pose proof (hs_thread m ts 1 p fzero En E) as ST. cbn [hy_mem] in EX. rewrite EX in ST. exact ST.
Qed.
Print Assumptions C107_can_crash.

(** C107. Nor does its absence mean that nothing went wrong: both goroutines can finish normally and leave
    in the cache of the first word's node something else than its path, which every later GetPath of that
    node returns (here: node, root, node, root instead of root, node). *)
Theorem C107_wrong_for_good : let id := fun w : gostring => w in let rand := fun _ : nat => fzero in
  let sig := sigmoid (sig_table (fun _ => f_of_Z 1)) in
  w2v_usable id hs_opts P36_Schedules.abab P36_Schedules.abab_words /\
  exists w0 x tree set d s path h, w2v_setup id rand hs_opts P36_Schedules.abab = Ret w0 /\ w2v_source id hs_opts w0 = Ret x /\ wv_opt w0 = HS tree set d /\
    hruns (HSys (hs_mem 1 (f_dec 25 3) (wv_param w0) tree) (hs_workers sig hs_opts w0 [fzero] (parts x))) s /\
    forallb hdone (hy_threads s) = true /\
    snd (get_path tree 0 d) = Ret path /\
    (forall rnd k, hrun rnd (h_getpath tree 0 d) k (hy_mem s) = Ret (k, hy_mem s, h)) /\
    elements (hm_arrays (hy_mem s)) h <> map Some path.
Proof.
  intros id rand sig. split; [exact hs_opts_usable|].
  pose (sched := (repeat 0 7 ++ repeat 1 7 ++ [0; 1] ++ repeat 0 2 ++ repeat 1 2 ++ repeat 0 80 ++ repeat 1 80)%nat).
  assert (E : match w2v_setup id rand hs_opts P36_Schedules.abab with
    | Ret w0 => match w2v_source id hs_opts w0, wv_opt w0 with
        | Ret x, HS tree set d =>
            match RaceHSRuns.follow sched (HSys (hs_mem 1 (f_dec 25 3) (wv_param w0) tree) (hs_workers sig hs_opts w0 [fzero] (parts x))) with
            | Ret s => forallb hdone (hy_threads s) = true /\ snd (get_path tree 0 d) = Ret [2; 0]%nat /\
                 d = 100 /\ nth 0 (hm_cache (hy_mem s)) None = Some (Hdr 4 4 4) /\ elements (hm_arrays (hy_mem s)) (Hdr 4 4 4) = [Some 0; Some 2; Some 0; Some 2]%nat
            | _ => False end
        | _, _ => False end
    | _ => False end) by (vm_compute; auto 10).
  destruct (w2v_setup id rand hs_opts P36_Schedules.abab) as [w0|e|]; [|contradiction|contradiction].
  destruct (w2v_source id hs_opts w0) as [x|e|] eqn:Ex; [|contradiction|contradiction]. destruct (wv_opt w0) as [|tree set d] eqn:Eo; [contradiction|].
  destruct (RaceHSRuns.follow sched _) as [s|e|] eqn:EF; [|contradiction|contradiction].
  destruct E as (ED & EG & Ed & EC & EE). exists w0, x, tree, set, d, s, [2; 0]%nat, (Hdr 4 4 4).
  split; [reflexivity|]. split; [exact Ex|]. split; [exact Eo|]. split; [exact (RaceHSRuns.follow_runs _ _ _ EF)|]. split; [exact ED|]. split; [exact EG|].
  split; [|rewrite EE; discriminate]. intros rnd k. subst d. unfold h_getpath. cbn [hrun a_is_nil get obind]. rewrite EC. unfold h_cut. cbn [hrun a_len a_cut get get_or_panic obind].
  unfold header. rewrite EC. change (100 >? Z.of_nat (s_len (Hdr 4 4 4))) with true. cbn [hrun a_len a_cut get get_or_panic obind]. unfold a_cut, get_or_panic, header. rewrite EC. reflexivity.
Qed.
Print Assumptions C107_wrong_for_good.

(** C107. A goroutine that runs alone computes what the sequential model computes: the same parameters, node
    vectors and cached paths, generator and number of random numbers; it fails exactly when that fails. [tree]:
    the nodes as built; [h]: the nodes now, [m] the memory that holds them. *)
Theorem C107_alone : forall sig rand o w slice v dim V rows tree set d h m,
  w2v_Dim o = Z.of_nat dim -> Forall (fun id => (id < V)%nat) slice -> (V <= length (wv_samples w))%nat ->
  wv_opt w = HS tree set d -> Forall (fun n => (n < length tree)%nat) set ->
  wv_m v = of_rows dim rows -> all_len dim rows -> length rows = V ->
  wv_o v = HS h set d -> grown dim tree h -> holds h (wv_m v) (wv_next v) (wv_lr v) m ->
  exists p, hs_workers sig o w (repeat fzero dim) [slice] = [p] /\
    match one_pass (w2v_trial rand (wv_samples w)) (w2v_step sig (wv_mod w) (w2v_Window o) (w2v_Dim o)) slice 0 slice v with
    | Ret v' => exists m' h' rows', hrun rand p (wv_k v) m = Ret (wv_k v', m', tt) /\ wv_o v' = HS h' set d /\ grown dim tree h' /\
        wv_m v' = of_rows dim rows' /\ all_len dim rows' /\ length rows' = V /\ holds h' (wv_m v') (wv_next v') (wv_lr v') m'
    | Err e => hrun rand p (wv_k v) m = Err e
    | Panic => hrun rand p (wv_k v) m = Panic
    end.
Proof.
  intros sig rand o w slice v dim V rows tree set d h m Hd HF Hs Ew Hset Em A L Eo HG HM. unfold hs_workers. rewrite Ew. eexists. split; [reflexivity|].
  rewrite Hd, Nat2Z.id.
  pose proof (RaceHSSeq.sim_worker tree sig rand dim V (w2v_Window o) d set Hset (match wv_mod w with Cbow => true | SkipGram => false end) (wv_samples w) slice HF Hs v m) as HW.
  assert (HV : RaceHSSeq.vrel tree dim V d set v m) by (exists h, rows; auto 10). specialize (HW HV). unfold RaceHSSeq.sim in HW.
  assert (EM : (if match wv_mod w with Cbow => true | SkipGram => false end then Cbow else SkipGram) = wv_mod w) by (destruct (wv_mod w); reflexivity).
  rewrite EM in HW. destruct (one_pass _ _ _ _ _ _) as [v'|e|]; [|exact HW|exact HW].
  destruct HW as (k' & m' & [] & E & -> & (h' & rows' & B1 & B2 & B3 & B4 & B5 & B6)). exists m', h', rows'. auto 10.
Qed.
Print Assumptions C107_alone.

(** C107. Every usable training with hierarchical softmax starts in such a state, with every slice's goroutine. *)
Theorem C107_start : forall lower rand o doc all w0 x next lr,
  w2v_usable lower o doc all -> w2v_OptimizerType o = "hs"%string -> w2v_setup lower rand o doc = Ret w0 -> w2v_source lower o w0 = Ret x ->
  let dim := Z.to_nat (w2v_Dim o) in let V := dict_len (c_dic (wv_corpus w0)) in
  exists tree set rows, w2v_Dim o = Z.of_nat dim /\ Forall (Forall (fun id => (id < V)%nat)) (parts x) /\ (V <= length (wv_samples w0))%nat /\
    wv_opt w0 = HS tree set (w2v_MaxDepth o) /\ Forall (fun n => (n < length tree)%nat) set /\ length set = V /\
    wv_param w0 = of_rows dim rows /\ all_len dim rows /\ length rows = V /\
    grown dim tree tree /\ holds tree (wv_param w0) next lr (hs_mem next lr (wv_param w0) tree).
Proof.
  intros lower rand o doc all w0 x next lr HU HO HSet Hx dim V. set (exp := fun _ : f64 => fzero).
  destruct (RunW2v.w2v_ready_w0 exp lower rand o doc all HU w0 HSet) as (Ed & _ & Ls & rows & Em & A & L & HR).
  destruct (RunW2v.w2v_chunks exp lower rand o doc all HU w0 HSet x Hx) as (_ & HF & _).
  pose proof (TrainOne.reach_ok _ [used_words lower (w2v_ToLower o) all] _ _ ltac:(cbn [fold_left]; rewrite TrainProps.dict_len_distinct; exact (wu_words _ _ _ _ HU)) HR) as HOK.
  assert (EV : V = length (distinct (used_words lower (w2v_ToLower o) all))) by (unfold V; rewrite Ed; apply TrainProps.dict_len_distinct).
  cbn [fold_left] in HOK. rewrite TrainProps.dict_len_distinct in HOK. rewrite <- EV in *. change (Sched.pending x) with (parts x) in *.
  assert (EO : exists tree set, wv_opt w0 = HS tree set (w2v_MaxDepth o) /\ Forall (RaceHSSeq.fresh_node dim) tree).
  { revert HSet. unfold w2v_setup. rewrite HO. change (String.eqb "hs" ns_type) with false. change (String.eqb "hs" hs_type) with true. cbv iota.
    destruct (load_corpus _ _ _ _ _ _ _ _ _) as [c|e|]; cbn [obind]; try discriminate.
    destruct (mat_new _ _ _ _) as [[k param]|e|]; cbn [obind]; try discriminate.
    destruct (subsample_new _ _) as [sm|e|]; cbn [obind]; try discriminate.
    match goal with |- obind ?q _ = _ -> _ => destruct q as [md|e|]; cbn [obind]; try discriminate end.
    destruct (huffman_tree _ _) as [[t s]|e|] eqn:EH; cbn [obind]; try discriminate.
    intros E. injection E as <-. exists t, s. split; [reflexivity|]. exact (RaceHSSeq.fresh_tree _ _ _ _ EH). }
  destruct EO as (tree & set & EO & HFr). rewrite EO in HOK. destruct HOK as ((HL & _) & -> & _).
  destruct (RaceHSSeq.fresh_start dim tree (wv_param w0) next lr HFr) as (S1 & S2).
  exists tree, (seq 0 V), rows. split; [unfold dim; pose proof (wu_dim _ _ _ _ HU); lia|]. split; [exact HF|]. split; [lia|]. split; [exact EO|].
  split; [apply Forall_forall; intros n Hn; apply in_seq in Hn; lia|]. split; [apply seq_length|]. auto 10.
Qed.
Print Assumptions C107_start.

(** The lookup of a sum that is not saturated succeeds except for the two values of C29. *)
Lemma hs_lookup exp y : fle y (fopp max_exp) = false -> fge y max_exp = false ->
  (exists s, sigmoid (sig_table exp) y = Ret s) \/ (sigmoid (sig_table exp) y = Panic /\ lookup_risk (sigmoid (sig_table exp)) f64 (get_or_panic (fun _ => sigmoid (sig_table exp) y))).
Proof.
  intros H1 H2. pose proof (W2vProps.marked_follows exp y H1 H2) as HM. pose proof (W2vProps.marked_safe exp y H1 H2) as HM2.
  unfold W2vProps.marked in HM, HM2.
  destruct (sigmoid (sig_table exp) y) as [v|e|] eqn:E; [left; eauto| |right].
  - exfalso. clear HM HM2. unfold sigmoid in E. destruct (zindex _ _); discriminate E.
  - split; [reflexivity|]. rewrite <- E. constructor. change (f_of_ratio false (6 * 2 ^ 50 - 1) (2 ^ 50)) with W2vProps.just_below.
    destruct (isnan y); [auto|]. destruct (feq y W2vProps.just_below); [auto|]. cbn [orb] in *. exfalso. apply HM2; reflexivity.
Qed.

Lemma vec_lens dim tree h n : grown dim tree h -> (nth n (map (@length f64) (map hn_vec h)) 0 <= dim)%nat.
Proof.
  intros (_ & _ & H). change 0%nat with (length (@nil f64)). rewrite map_nth. change (@nil f64) with (hn_vec node0). rewrite map_nth. apply H.
Qed.

(** C107. Whatever the interleaving, the options and the number of iterations: the parameters keep their shape, the
    node vectors their lengths, and the only accesses that can fail are the cut of the cached path in GetPath, the
    use of a nil element of a path, and the sigmoid lookups of C29. *)
Theorem C107_only_ways : forall exp lower rand o doc all w0 x scratch next lr,
  w2v_usable lower o doc all -> w2v_OptimizerType o = "hs"%string -> w2v_setup lower rand o doc = Ret w0 -> w2v_source lower o w0 = Ret x ->
  length scratch = Z.to_nat (w2v_Dim o) -> is_uint64 next ->
  exists tree set, wv_opt w0 = HS tree set (w2v_MaxDepth o) /\
    hsurvives (shaped (dict_len (c_dic (wv_corpus w0))) (Z.to_nat (w2v_Dim o)) (map (fun nd => length (hn_vec nd)) tree))
      (path_risk (sigmoid (sig_table exp))) (hs_workers (sigmoid (sig_table exp)) o w0 scratch (parts x)) (hs_mem next lr (wv_param w0) tree).
Proof.
  intros exp lower rand o doc all w0 x scratch next lr HU HO HSet Hx Lsc HN.
  destruct (C107_start lower rand o doc all w0 x next lr HU HO HSet Hx) as (tree & set & rows & Hd & HF & Hs & Eo & Hset & Lset & Em & A & L & HG & HM).
  exists tree, set. split; [exact Eo|]. set (V := dict_len (c_dic (wv_corpus w0))) in *. set (dim := Z.to_nat (w2v_Dim o)) in *.
  set (sig := sigmoid (sig_table exp)) in *. set (lens := map (fun nd => length (hn_vec nd)) tree).
  assert (EL : lens = map (@length f64) (map hn_vec tree)) by (unfold lens; rewrite map_map; reflexivity).
  assert (HV : Z.of_nat V < 2 ^ 63).
  { destruct (RunW2v.w2v_ready_w0 exp lower rand o doc all HU w0 HSet) as (Ed & _). unfold V. rewrite Ed, TrainProps.dict_len_distinct. exact (wu_words _ _ _ _ HU). }
  assert (HT : Forall (fun p => RaceHSSafe.hsafe V dim lens (fun _ _ => True) (path_risk sig) p (fun _ => True)) (hs_workers sig o w0 scratch (parts x))).
  { unfold hs_workers. rewrite Eo. apply Forall_forall. intros p Hp. apply in_map_iff in Hp. destruct Hp as (s & <- & Hs').
    apply RaceHSSafe.worker_safe; auto.
    - intros n. rewrite EL. eapply vec_lens, HG.
    - intros y H1 H2. destruct (hs_lookup exp y H1 H2) as [E|(E & R)]; [left; exact E|right]. split; [exact E|]. apply risk_other, R.
    - intros n _. apply RaceHSSafe.cold_getpath. intros h c a i _ _ _. constructor.
    - exact (wu_window _ _ _ _ HU).
    - rewrite Forall_forall in HF. exact (HF s Hs'). }
  intros k s HD. destruct (RaceHSSafe.survives_safe V dim lens (fun _ _ => True) (path_risk sig) _ (hs_mem next lr (wv_param w0) tree) HT) with (k := k) (s := s) as ((H1 & _) & H2); auto.
  split; [|exact I]. split; [exists rows; auto|]. split; [symmetry; exact EL|exact HN].
Qed.
Print Assumptions C107_only_ways.

(** C107. Once the path of every word is cached, the caches never change again, in however many iterations, and
    only the sigmoid lookups of C29 can fail. [h]: the nodes as they are when the goroutines start. *)
Theorem C107_warm : forall exp lower rand o doc all w0 x scratch tree set d h P next lr m,
  w2v_usable lower o doc all -> w2v_OptimizerType o = "hs"%string -> w2v_setup lower rand o doc = Ret w0 -> w2v_source lower o w0 = Ret x ->
  length scratch = Z.to_nat (w2v_Dim o) -> is_uint64 next -> wv_opt w0 = HS tree set d ->
  let V := dict_len (c_dic (wv_corpus w0)) in let dim := Z.to_nat (w2v_Dim o) in
  grown dim tree h -> grid V dim P -> holds h P next lr m -> (forall n, In n set -> hn_cache (hget h n) <> None) ->
  hsurvives (fun m' => shaped V dim (map (fun nd => length (hn_vec nd)) h) m' /\ hm_cache m' = hm_cache m /\ hm_arrays m' = hm_arrays m)
    (lookup_risk (sigmoid (sig_table exp))) (hs_workers (sigmoid (sig_table exp)) o w0 scratch (parts x)) m.
Proof.
  intros exp lower rand o doc all w0 x scratch tree set d h P next lr m HU HO HSet Hx Lsc HN Eo V dim HG HP HM HC.
  destruct (C107_start lower rand o doc all w0 x next lr HU HO HSet Hx) as (tree' & set' & rows & Hd & HF & Hs & Eo' & Hset & Lset & _).
  assert (tree' = tree /\ set' = set /\ w2v_MaxDepth o = d) as (-> & -> & Ed) by (rewrite Eo in Eo'; inversion Eo'; auto). fold V dim in Hs, HF, Lset.
  set (sig := sigmoid (sig_table exp)) in *. set (lens := map (fun nd => length (hn_vec nd)) h).
  assert (EL : lens = map (@length f64) (map hn_vec h)) by (unfold lens; rewrite map_map; reflexivity).
  assert (HV : Z.of_nat V < 2 ^ 63).
  { destruct (RunW2v.w2v_ready_w0 exp lower rand o doc all HU w0 HSet) as (Ed' & _). unfold V. rewrite Ed', TrainProps.dict_len_distinct. exact (wu_words _ _ _ _ HU). }
  destruct HM as (M1 & M2 & M3 & M4 & C1 & C2).
  set (J := RaceHSSafe.still (hm_cache m) (hm_arrays m)).
  assert (HT : Forall (fun p => RaceHSSafe.hsafe V dim lens J (lookup_risk sig) p (fun _ => True)) (hs_workers sig o w0 scratch (parts x))).
  { unfold hs_workers. rewrite Eo. apply Forall_forall. intros p Hp. apply in_map_iff in Hp. destruct Hp as (s & <- & Hs').
    apply RaceHSSafe.worker_safe; auto.
    - intros n. rewrite EL. eapply vec_lens, HG.
    - apply hs_lookup.
    - intros n Hn. specialize (HC n Hn). specialize (C2 n). destruct (hn_cache (hget h n)) as [l|]; [|congruence].
      destruct (nth n (hm_cache m) None) as [hd|] eqn:En; [|contradiction]. eapply RaceHSSafe.warm_getpath; eauto. rewrite <- Ed. exact (wu_depth _ _ _ _ HU).
    - exact (wu_window _ _ _ _ HU).
    - rewrite Forall_forall in HF. exact (HF s Hs'). }
  apply (RaceHSSafe.survives_safe V dim lens J (lookup_risk sig) _ m HT).
  split; [|split; reflexivity]. split; [rewrite M1; exact HP|]. split; [rewrite M4; symmetry; exact EL|]. rewrite M2. exact HN.
Qed.
Print Assumptions C107_warm.

(** C107. No goroutines run forever: there is no endless sequence of their steps, whatever is written to currentlr
    in between. With the above: they all finish, or one fails in one of the ways listed. *)
Theorem C107_ends : forall run : nat -> hsystem, ~ (forall n, turn (run n) (run (S n))).
Proof. exact RaceHSSafe.no_endless. Qed.
Print Assumptions C107_ends.

(** The hypotheses of [C107_warm] are met after one goroutine has trained "a b" alone: both paths are cached then. *)
Example C107_warm_applies : let id := fun w : gostring => w in let rand := fun _ : nat => fzero in let sig := sigmoid (sig_table (fun _ => f_of_Z 1)) in
  exists w0 tree set d h P m, w2v_usable id hs_opts P36_Schedules.abab P36_Schedules.abab_words /\ w2v_setup id rand hs_opts P36_Schedules.abab = Ret w0 /\
    wv_opt w0 = HS tree set d /\ grown 1 tree h /\ grid (dict_len (c_dic (wv_corpus w0))) 1 P /\ is_uint64 (hm_next m) /\ holds h P (hm_next m) (hm_lr m) m /\
    length set = 2%nat /\ (forall n, In n set -> hn_cache (hget h n) <> None) /\
    exists p k, hs_workers sig hs_opts w0 [fzero] [[0; 1]]%nat = [p] /\ hrun rand p 0 (hs_mem 1 (f_dec 25 3) (wv_param w0) tree) = Ret (k, m, tt).
Proof.
  intros id rand sig.
  assert (EB : match w2v_setup id rand hs_opts P36_Schedules.abab with
    | Ret w0 => match w2v_source id hs_opts w0, wv_opt w0 with Ret x, HS tree set d =>
        match one_pass (w2v_trial rand (wv_samples w0)) (w2v_step sig (wv_mod w0) (w2v_Window hs_opts) (w2v_Dim hs_opts)) [0; 1]%nat 0 [0; 1]%nat (WVals 1 (wv_param w0) (wv_opt w0) (f_dec 25 3) 0) with
        | Ret v' => (0 <=? wv_next v') && (wv_next v' <? 2 ^ 64) && (length set =? 2)%nat && (dict_len (c_dic (wv_corpus w0)) =? 2)%nat &&
            match wv_o v' with HS h' _ _ => forallb (fun n => match hn_cache (hget h' n) with Some _ => true | None => false end) set | _ => false end
        | _ => false end | _, _ => false end
    | _ => false end = true) by (vm_compute; reflexivity).
  destruct (w2v_setup id rand hs_opts P36_Schedules.abab) as [w0|e|] eqn:ES; try discriminate EB.
  destruct (w2v_source id hs_opts w0) as [x|e|] eqn:Ex; try discriminate EB. destruct (wv_opt w0) as [|tree set d] eqn:Eo; try discriminate EB.
  destruct (C107_start id rand hs_opts _ _ w0 x 1 (f_dec 25 3) hs_opts_usable eq_refl ES Ex) as (tree' & set' & rows & Hd & _ & Hs & Eo' & Hset & Lset & Em & A & L & HG & HM).
  assert (tree' = tree /\ set' = set /\ w2v_MaxDepth hs_opts = d) as (-> & -> & Ed) by (rewrite Eo in Eo'; inversion Eo'; auto).
  set (v0 := WVals 1 (wv_param w0) (HS tree set d) (f_dec 25 3) 0) in EB.
  destruct (one_pass _ _ _ _ _ _) as [v'|e|] eqn:EO; try discriminate EB. destruct (wv_o v') as [|h' set1 d1] eqn:Eo1; [rewrite andb_false_r in EB; discriminate EB|].
  apply andb_prop in EB. destruct EB as (EB & E5). apply andb_prop in EB. destruct EB as (EB & E4). apply andb_prop in EB. destruct EB as (EB & E3). apply andb_prop in EB. destruct EB as (E1 & E2).
  apply Z.leb_le in E1. apply Z.ltb_lt in E2. apply Nat.eqb_eq in E3, E4.
  destruct (C107_alone sig rand hs_opts w0 [0; 1]%nat v0 1 2 rows tree set d tree (hs_mem 1 (f_dec 25 3) (wv_param w0) tree)) as (p & Ep & HP); auto.
  { rewrite E4 in Hs. exact Hs. }
  { rewrite E4 in L. exact L. }
  change (repeat fzero 1) with [fzero] in Ep. rewrite EO in HP. destruct HP as (m' & h1 & rows' & ER & Eo2 & HG' & Em' & A' & L' & HM').
  assert (h1 = h') by congruence. subst h1. pose proof HM' as (_ & N1 & N2 & _).
  exists w0, tree, set, d, h', (wv_m v'), m'. split; [exact hs_opts_usable|]. split; [reflexivity|]. split; [exact Eo|]. split; [exact HG'|].
  split; [rewrite E4; exists rows'; auto|]. split; [rewrite N1; split; assumption|]. split; [rewrite N1, N2; exact HM'|]. split; [exact E3|].
  split; [|exists p, (wv_k v'); split; [exact Ep|exact ER]].
  intros n Hn. rewrite forallb_forall in E5. specialize (E5 n Hn). destruct (hn_cache (hget h' n)); [discriminate|discriminate E5].
Qed.
