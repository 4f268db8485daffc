(** Rows of words that are not in the training text. *)
From Coq Require Import Lia Sorting.Permutation.
From Verif.Lib Require Import Go F64 F64Facts ListFacts Tac.
From Verif.Spec Require Import Words Tokens Filter Rows Readable Runs Reach Sched Training Cells Race.
From Verif.Model Require Import Dictionary Reader Corpus ModelUtil Matrix Subsample LearningRate Sigmoid Word2vec Glove Lexvec Encode Options Train Vector Sched Run Race.
From Verif.Proofs Require Import Sched Word2vec.
From Verif.Proofs Require Dictionary W2vProps Run RunSetup RunModels RunGlove RunW2v RaceRows TrainProps Lexvec Window Vector Race Cells.
Local Open Scope Z_scope.

Lemma first_occurrence (v : gostring) ws : In v ws -> exists l1 l2, ws = l1 ++ v :: l2 /\ ~ In v l1.
Proof.
  induction ws as [|u ws IH]; [intros []|]. intros H. destruct (gostring_eq_dec u v) as [->|N].
  - exists [], ws. auto.
  - destruct H as [E|H]; [contradiction|]. destruct (IH H) as (l1 & l2 & -> & HN). exists (u :: l1), l2. split; [reflexivity|].
    intros [E|E]; auto.
Qed.

(** The id of a dropped word is not among the ids of the kept words. *)
Lemma dropped_id maxc minc ws w : In w ws -> kept maxc minc (occurrences w ws) = false ->
  let d := dict_add dict_new ws in
  (fst (dict_id d w) < dict_len d)%nat /\ ~ In (fst (dict_id d w)) (map (fun w => fst (dict_id d w)) (kept_words maxc minc ws)).
Proof.
  intros Hw Hk d. pose proof (Dictionary.dictionary_ids_lemma [ws]) as H. cbn zeta in H. cbn [fold_left concat] in H. rewrite app_nil_r in H. fold d in H.
  destruct H as (HL & HI & _ & HW & _).
  assert (ID : forall v, In v ws -> exists i, dict_id d v = (i, true) /\ (i < dict_len d)%nat).
  { intros v Hv. destruct (first_occurrence v ws Hv) as (l1 & l2 & E & N). rewrite (HI l1 v l2 E N). eexists. split; [reflexivity|].
    rewrite HL, E. pose proof (Dictionary.distinct_first l1 v l2 N) as F. assert (nth_error (distinct (l1 ++ v :: l2)) (length (distinct l1)) <> None) as F' by congruence.
    apply nth_error_Some in F'. exact F'. }
  destruct (ID w Hw) as (i & Ei & Li). rewrite Ei. cbn [fst]. split; [exact Li|].
  intros Hin. apply in_map_iff in Hin. destruct Hin as (v & Ev & Hv). apply filter_In in Hv. destruct Hv as (Hv & Kv).
  destruct (ID v Hv) as (j & Ej & _). rewrite Ej in Ev. cbn in Ev. subst j.
  apply HW in Ei, Ej. rewrite Ei in Ej. injection Ej as <-. congruence.
Qed.

Lemma known_id ws w : In w ws -> let d := dict_add dict_new ws in dict_id d w = (fst (dict_id d w), true).
Proof.
  intros Hw d. pose proof (Dictionary.dictionary_ids_lemma [ws]) as H. cbn zeta in H. cbn [fold_left concat] in H. rewrite app_nil_r in H. fold d in H.
  destruct H as (_ & HI & _). destruct (first_occurrence w ws Hw) as (l1 & l2 & E & N). rewrite (HI l1 w l2 E N). reflexivity.
Qed.

(** A cell-wise statement about a table gives its rows. *)
Lemma row_of_cells dim (out rows : list (list f64)) q : all_len dim out -> all_len dim rows -> (q < length out)%nat -> (q < length rows)%nat ->
  (forall j, (j < dim)%nat -> nth j (nth q out []) fzero = nth j (nth q rows []) fzero) -> nth q out [] = nth q rows [].
Proof.
  intros A B Ha Hb H. apply (nth_ext _ _ fzero fzero).
  - rewrite (all_len_nth dim out q A Ha), (all_len_nth dim rows q B Hb). reflexivity.
  - intros j Hj. apply H. rewrite (all_len_nth dim out q A Ha) in Hj. exact Hj.
Qed.

Section W2v.
Variables (exp : f64 -> f64) (lower : gostring -> gostring) (rand : nat -> f64) (o : w2v_opts) (doc : reader) (all : list gostring) (w0 : w2v) (x : source nat).
Hypothesis HU : w2v_usable lower o doc all.
Hypothesis HS : w2v_setup lower rand o doc = Ret w0.
Hypothesis Hx : w2v_source lower o w0 = Ret x.
Let lw := used_words lower (w2v_ToLower o) all.
Let V := length (distinct lw).
Let dim := Z.to_nat (w2v_Dim o).
Variable id : nat.
Hypothesis Hid : (id < V)%nat.
Hypothesis Hout : ~ In id (concat (parts x)).

Lemma not_in_part dd : In dd (parts x) -> ~ In id dd.
Proof. intros H1 H2. apply Hout. apply in_concat. eauto. Qed.

(** The invariant: the shape, and the row. *)
Definition w2_keeps (row : list f64) (v : wvals) : Prop :=
  exists rows, wv_m v = of_rows dim rows /\ all_len dim rows /\ length rows = V /\
    opt_reach (sigmoid (sig_table exp)) (dict_add dict_new lw) dim (wv_o v) /\ nth id rows [] = row.

Lemma w2_work_keeps row dd pos v v' : w2_keeps row v -> In dd (parts x) -> (pos < length dd)%nat ->
  e_work (w2v_effects (sigmoid (sig_table exp)) rand o w0) dd pos v (Ret v') -> w2_keeps row v'.
Proof.
  intros (rows & Em & A & L & HO & Hrow) Hdd Hpos (agg & tmp & Ha & Ht & Hr).
  pose proof (RunW2v.w2_dim lower o doc all HU) as Edim. fold dim in Edim. rewrite <- Edim in Ha, Ht.
  set (train := match wv_mod w0 with SkipGram => sg_train_one | Cbow => cb_train_one end).
  pose proof (W2vProps.train_one_lemma exp [lw] dim (w2v_Window o) (map Z.of_nat dd) (Z.of_nat pos) (wv_lr v) (wv_next v) rows (wv_o v) agg tmp train) as T.
  cbv zeta in T. cbn [fold_left] in T. rewrite TrainProps.dict_len_distinct in T. fold V in T. rewrite <- Em in T.
  specialize (T (wu_words _ _ _ _ HU) (wu_window _ _ _ _ HU)).
  assert (HD : Forall (fun id => (id < V)%nat) dd) by exact (RunW2v.w2_in_chunk exp lower rand o doc all HU w0 HS x Hx dd Hdd).
  assert (HD' : Forall (fun id => 0 <= id < Z.of_nat V) (map Z.of_nat dd)).
  { rewrite Forall_forall in *. intros z Hz. apply in_map_iff in Hz. destruct Hz as (n & <- & Hn). specialize (HD n Hn). cbn beta in HD. lia. }
  specialize (T HD'). rewrite map_length in T. specialize (T ltac:(lia) HO A L ltac:(lia) ltac:(lia)).
  assert (Htr : train = sg_train_one \/ train = cb_train_one) by (unfold train; destruct (wv_mod w0); auto). specialize (T Htr).
  assert (Hr' : Ret v' = obind (train (sigmoid (sig_table exp)) (w2v_Window o) (map Z.of_nat dd) (Z.of_nat pos) (wv_lr v) (WState (wv_next v) (wv_m v) (wv_o v) agg tmp))
    (fun s => Ret (WVals (s_next s) (s_param s) (s_opt s) (wv_lr v) (wv_k v)))).
  { rewrite Hr. unfold train. destruct (wv_mod w0); reflexivity. }
  clear Hr. destruct (train (W2vProps.marked exp) _ _ _ _ _) as [st'|e|] eqn:Et.
  - destruct T as (Tr & rows' & Ep & A' & L' & HO' & _ & _ & HF). rewrite Tr in Hr'. cbn [obind] in Hr'. injection Hr' as ->.
    exists rows'. cbn [wv_m wv_o]. split; [exact Ep|]. split; [exact A'|]. split; [exact L'|]. split; [exact HO'|].
    rewrite HF; [exact Hrow|]. intros c Hc E. apply Window.context_In in Hc. apply (not_in_part dd Hdd).
    change 0 with (Z.of_nat 0) in E. rewrite map_nth in E. apply Nat2Z.inj in E. rewrite <- E. apply nth_In. lia.
  - rewrite T in Hr'. cbn [obind] in Hr'. discriminate Hr'.
  - destruct T.
Qed.

Lemma w2_start_keeps next lr rows : wv_param w0 = of_rows dim rows -> all_len dim rows -> length rows = V ->
  w2_keeps (nth id rows []) (w2v_start next lr w0).
Proof.
  intros Em A L. destruct (RunW2v.w2v_ready_w0 exp lower rand o doc all HU w0 HS) as (_ & _ & _ & rows' & _ & _ & _ & HO).
  exists rows. auto 8.
Qed.

Lemma w2_reach_keeps iter next lr l v rows : wv_param w0 = of_rows dim rows -> all_len dim rows -> length rows = V ->
  reaches (w2v_cfg o) (w2v_effects (sigmoid (sig_table exp)) rand o w0) iter (fun _ => x) (w2v_start next lr w0) l v -> w2_keeps (nth id rows []) v.
Proof.
  intros Em A L. apply Run.reach_pres.
  - apply (RunW2v.w2v_chunks exp lower rand o doc all HU w0 HS x Hx).
  - intros y v1 v2 b HK _ HT. cbn [w2v_effects e_trial] in HT. unfold w2v_trial in HT.
    destruct (trial _ _ _); cbn [obind] in HT; try discriminate HT. injection HT as <- _. exact HK.
  - intros dd pos v1 v2 HK Hd Hp Hw. exact (w2_work_keeps _ dd pos v1 v2 HK Hd Hp Hw).
  - intros n v1 v2 HK _ HT. cbn [w2v_effects e_tick] in HT. unfold w2v_tick in HT.
    destruct (lr_tick _ _ _); cbn [obind] in HT; try discriminate HT. injection HT as <-. exact HK.
  - apply w2_start_keeps; auto.
Qed.
End W2v.

Section Lex.
Variables (lower : gostring -> gostring) (rand : nat -> f64) (flog : f64 -> f64) (fpow : f64 -> f64 -> f64) (order : list (Z * f64) -> list (Z * f64)).
Variables (o : lex_opts) (doc : reader) (all : list gostring) (l0 : lxv) (x : source nat).
Hypothesis HP : forall m, Permutation (order m) m.
Hypothesis HU : lxv_usable lower o doc all.
Hypothesis HS : lxv_setup lower rand flog fpow order o doc = Ret l0.
Hypothesis Hx : lxv_source lower o l0 = Ret x.
Let lw := used_words lower (lex_ToLower o) all.
Let V := length (distinct lw).
Let dim := Z.to_nat (lex_Dim o).
Variable id : nat.
Hypothesis Hid : (id < V)%nat.
Hypothesis Hout : ~ In id (concat (parts x)).

Definition lx_keeps (row : list f64) (v : lvals) : Prop :=
  exists rows, lv_m v = of_rows dim rows /\ all_len dim rows /\ length rows = (2 * V)%nat /\ nth id rows [] = row.

Lemma lx_work_keeps row dd pos v v' : lx_keeps row v -> In dd (parts x) -> (pos < length dd)%nat ->
  e_work (lxv_effects rand o l0) dd pos v (Ret v') -> lx_keeps row v'.
Proof.
  intros (rows & Em & A & L & Hrow) Hdd Hpos.
  assert (HD : Forall (fun id => (id < V)%nat) dd) by exact (RunModels.in_chunk_lt lower rand flog fpow order o doc all HU HP l0 HS x Hx dd Hdd).
  cbn [lxv_effects e_work]. unfold lxv_work.
  destruct (RunModels.lxv_ready_l0 lower rand flog fpow order o doc all HU HP l0 HS) as (_ & Ed & _).
  rewrite Ed, <- (RunModels.lx_dim lower o doc all HU). rewrite TrainProps.dict_len_distinct. fold lw V dim.
  assert (HV : 1 <= Z.of_nat V < 2 ^ 63).
  { pose proof (lu_words _ _ _ _ HU) as HW. fold lw in HW. fold V in HW. lia. }
  assert (EN : forall st, lex_train_one (Z.of_nat dim) (lv_lr v) (lx_items l0) (Z.of_nat V) (lex_Window o) (lex_NegativeSampleSize o) (map Z.of_nat dd) (Z.of_nat pos) st =
               lex_train_one (Z.of_nat dim) (lv_lr v) (lx_items l0) (Z.of_nat V) (lex_Window o) (Z.of_nat (Z.to_nat (lex_NegativeSampleSize o))) (map Z.of_nat dd) (Z.of_nat pos) st).
  { intros st. unfold lex_train_one, lex_body. rewrite Nat2Z.id. reflexivity. }
  rewrite EN, Em. rewrite (Lexvec.train_one_lemma dim (lv_lr v) (lx_items l0) V HV dd pos HD Hpos _ _ (lv_next v) rows (lu_window _ _ _ _ HU) A L).
  cbn [obind]. intros E2. injection E2 as ->.
  set (steps := lex_steps _ _ _ _ _ _).
  assert (HC : forall c, In c (context (Z.of_nat pos) (lex_Window o - lcg (lv_next v) mod lex_Window o) (length dd)) -> 0 <= c < Z.of_nat (length dd))
    by (intros c Hc; apply Window.context_In in Hc; lia).
  set (us := map _ (context _ _ _)) in steps.
  assert (HL : Forall (fun u => In u dd) us).
  { apply Forall_forall. intros u Hu. apply in_map_iff in Hu. destruct Hu as (c & <- & Hc). apply nth_In. specialize (HC c Hc). lia. }
  assert (HW : In (nth pos dd 0%nat) dd) by (apply nth_In; exact Hpos).
  assert (ST : Forall (fun s => (fst (fst s) < 2 * V)%nat /\ (snd (fst s) < 2 * V)%nat) steps).
  { eapply Forall_impl; [|apply (Lexvec.lex_steps_lt (lx_items l0) V HV dd pos Hpos)].
    - intros s Hs. cbn beta in Hs. lia.
    - rewrite Forall_forall in HL, HD |- *. auto.
    - rewrite Forall_forall in HD. auto. }
  destruct (Lexvec.fold_step_ok (lv_lr v) dim steps rows A ltac:(rewrite L; exact ST)) as (A' & L').
  eexists. split; [reflexivity|]. split; [exact A'|]. split; [congruence|].
  rewrite Lexvec.fold_step_frame; [exact Hrow|]. clear -HL HW Hid Hout Hdd HD.
  assert (HN : ~ In id dd) by (intros H2; apply Hout; apply in_concat; eauto).
  assert (G : forall us next, Forall (fun u => In u dd) us -> forall s, In s (lex_steps (fun a b => lookup0 (lx_items l0) (encode_bigram (Z.of_nat a) (Z.of_nat b))) V (Z.to_nat (lex_NegativeSampleSize o)) (nth pos dd 0%nat) us next) -> id <> fst (fst s) /\ id <> snd (fst s)).
  { induction us0 as [|u us0 IH]; intros next HF s Hs; [destruct Hs|]. inversion HF; subst. cbn [lex_steps] in Hs. destruct Hs as [<-|Hs].
    - cbn. split; intros ->; auto.
    - apply in_app_or in Hs. destruct Hs as [Hs|Hs]; [|eapply IH; eauto].
      apply in_map_iff in Hs. destruct Hs as (k & <- & _). cbn. split; [intros ->; auto|lia]. }
  exact (G us _ HL).
Qed.

Lemma lx_reach_keeps iter next lr l v rows : lx_param l0 = of_rows dim rows -> all_len dim rows -> length rows = (2 * V)%nat ->
  reaches (lxv_cfg o) (lxv_effects rand o l0) iter (fun _ => x) (lxv_start next lr l0) l v -> lx_keeps (nth id rows []) v.
Proof.
  intros Em A L. apply Run.reach_pres.
  - apply (RunModels.lxv_chunks lower rand flog fpow order o doc all HU HP l0 HS x Hx).
  - intros y v1 v2 b HK _ HT. cbn [lxv_effects e_trial] in HT. unfold lxv_trial in HT.
    destruct (trial _ _ _); cbn [obind] in HT; try discriminate HT. injection HT as <- _. exact HK.
  - intros dd pos v1 v2 HK Hd Hp Hw. exact (lx_work_keeps _ dd pos v1 v2 HK Hd Hp Hw).
  - intros n v1 v2 HK _ HT. cbn [lxv_effects e_tick] in HT. unfold lxv_tick in HT.
    destruct (lr_tick _ _ _); cbn [obind] in HT; try discriminate HT. injection HT as <-. exact HK.
  - exists rows. auto 8.
Qed.
End Lex.

Lemma w2v_single o w typ rows : 0 <= w2v_Dim o -> wv_param w = of_rows (Z.to_nat (w2v_Dim o)) rows -> all_len (Z.to_nat (w2v_Dim o)) rows ->
  length rows = dict_len (c_dic (wv_corpus w)) -> typ <> "agg"%string ->
  exists out, w2v_word_vector o w typ = Ret out /\ forall q, (q < dict_len (c_dic (wv_corpus w)))%nat -> mat_slice out (Z.of_nat q) = Ret (nth q rows []).
Proof.
  intros Hd EP A L N. set (dim := Z.to_nat (w2v_Dim o)) in *. set (V := dict_len (c_dic (wv_corpus w))) in *.
  assert (E : w2v_word_vector o w typ = vec_matrix (Z.of_nat V) (w2v_Dim o) (one_cell (wv_param w))).
  { unfold w2v_word_vector. fold V. destruct (wv_opt w); [|reflexivity]. destruct (String.eqb_spec typ agg_type); [contradiction|reflexivity]. }
  rewrite E. replace (w2v_Dim o) with (Z.of_nat dim) by (unfold dim; lia).
  rewrite (Vector.vec_matrix_spec V dim _ (Cells.at2 rows)).
  - eexists. split; [reflexivity|]. intros q Hq. destruct (Vector.table_ok V dim (Cells.at2 rows)) as (TL & TA & TC).
    fold (Vector.table V dim (Cells.at2 rows)). rewrite of_rows_slice by (auto; lia). f_equal. apply (row_of_cells dim); [auto|auto|rewrite TL; lia|lia|intros j Hj; exact (TC q j Hq Hj)].
  - intros q j Hq Hj. unfold one_cell. rewrite EP. apply Cells.cell_at; auto; lia.
Qed.

Lemma lxv_own o l rows : 0 <= lex_Dim o -> lx_param l = of_rows (Z.to_nat (lex_Dim o)) rows -> all_len (Z.to_nat (lex_Dim o)) rows ->
  length rows = (2 * dict_len (c_dic (lx_corpus l)))%nat ->
  exists out, lxv_word_vector o l "agg" = Ret out /\ forall q, (q < dict_len (c_dic (lx_corpus l)))%nat -> mat_slice out (Z.of_nat q) = Ret (nth q rows []).
Proof.
  intros Hd EP A L. set (dim := Z.to_nat (lex_Dim o)) in *. set (V := dict_len (c_dic (lx_corpus l))) in *.
  assert (E : lxv_word_vector o l "agg" = vec_matrix (Z.of_nat V) (lex_Dim o) (one_cell (lx_param l))) by reflexivity.
  rewrite E. replace (lex_Dim o) with (Z.of_nat dim) by (unfold dim; lia).
  rewrite (Vector.vec_matrix_spec V dim _ (Cells.at2 rows)).
  - eexists. split; [reflexivity|]. intros q Hq. destruct (Vector.table_ok V dim (Cells.at2 rows)) as (TL & TA & TC).
    fold (Vector.table V dim (Cells.at2 rows)). rewrite of_rows_slice by (auto; lia). f_equal. apply (row_of_cells dim); [auto|auto|rewrite TL; lia|lia|intros j Hj; exact (TC q j Hq Hj)].
  - intros q j Hq Hj. unfold one_cell. rewrite EP. apply Cells.cell_at; auto; lia.
Qed.
