(** * C102: several calls on one model object

    [history call lr h b] (Model/Life.v): some sequence of Train calls on a new object (currentlr [lr]), with
    the texts and results listed in [h], has left the object [b]. [w2v_vectors o b typ], [pair_vectors dim b typ]
    and [obj_save ..] are WordVector and Save of the object [b] in whatever state it is. *)
From Coq Require Import Lia Sorting.Permutation Reals.
From Verif.Lib Require Import Go F64 F64Facts.
From Verif.Spec Require Sequential.
From Verif.Spec Require Import Words Tokens Lines Rows Saved Decimal Readable Runs OneGoroutine.
From Verif.Model Require Import Dictionary Reader Corpus Matrix Word2vec Glove Lexvec Cooc Options Train Sigmoid Sched Run Embedding FmtFloat Vector Search Life.
From Verif.Proofs Require Follow Cells TrainProps Dictionary.
From Verif.Proofs Require Import Life Vector.
From Verif.Properties Require P23_Runs P24_EndToEnd P36_Schedules.
Local Open Scope Z_scope.

Section Calls.
Variables (exp flog : f64 -> f64) (fpow : f64 -> f64 -> f64) (lower : gostring -> gostring).
Notation w2v_hist o := (history (w2v_call lower exp o) (w2v_Initlr o)).
Notation glv_hist o := (history (glv_call lower flog fpow o) fzero).
Notation lxv_hist o := (history (lxv_call lower flog fpow o) (lex_Initlr o)).

(** C102. Before the first Train, WordVector and Save panic. *)
Theorem C102_before_train : forall (W : Type) (wr : writer W) cut st typ,
  (forall o b, w2v_hist o [] b -> w2v_vectors o b typ = Panic /\ obj_save wr cut (w2v_vectors o) (w2v_Verbose o) (w2v_LogBatch o) b typ st = (st, Panic)) /\
  (forall o b, glv_hist o [] b -> pair_vectors (glv_Dim o) b typ = Panic /\ obj_save wr cut (pair_vectors (glv_Dim o)) (glv_Verbose o) (glv_LogBatch o) b typ st = (st, Panic)) /\
  (forall o b, lxv_hist o [] b -> pair_vectors (lex_Dim o) b typ = Panic /\ obj_save wr cut (pair_vectors (lex_Dim o)) (lex_Verbose o) (lex_LogBatch o) b typ st = (st, Panic)).
Proof.
  intros W wr cut st typ.
  assert (N : forall Aux call lr (b : obj Aux), history call lr [] b -> b = fresh lr).
  { intros Aux call lr b H. remember [] as h eqn:Eh. destruct H as [|h b doc b' r H C]; [reflexivity|]. destruct h; discriminate Eh. }
  split; [|split]; intros o b H; apply N in H; subst b; split; reflexivity.
Qed.

(** C102. A successful Train makes the object what a new object would be, whatever happened before -
    GloVe exactly; word2vec and LexVec up to the learning rate, which is not reset. *)
Theorem C102_train_replaces_glove : forall o h b doc b', glv_hist o h b ->
  (glv_call lower flog fpow o b doc b' (Ret tt) <-> glv_call lower flog fpow o (fresh fzero) doc b' (Ret tt)).
Proof.
  intros o h b doc b' H. assert (L : ob_lr b = fzero).
  { induction H as [|h b d b2 r H IH C]; [reflexivity|]. rewrite <- IH. clear IH H.
    destruct C as [rand order b3 e HP|rand order b3 g0 x m sol HO HP HX HT].
    - destruct (glv_prepare_Err _ _ _ _ _ _ _ _ _ _ HP) as (c & _ & E & _). exact E.
    - destruct (glv_prepare_Ret _ _ _ _ _ _ _ _ _ _ HP) as (c & _ & -> & _). reflexivity. }
  split; intros C; inversion C as [|rand order b1 g0 x m sol HO HP HX HT E1 E2]; subst.
  - destruct (glv_prepare_Ret _ _ _ _ _ _ _ _ _ _ HP) as (c & _ & -> & F). specialize (F (fresh fzero)).
    cbn [ob_corpus ob_lr]. rewrite L. exact (glv_succeeds _ _ _ o _ doc rand order _ g0 x m sol HO F HX HT).
  - destruct (glv_prepare_Ret _ _ _ _ _ _ _ _ _ _ HP) as (c & _ & -> & F). specialize (F b). rewrite L in F.
    exact (glv_succeeds _ _ _ o _ doc rand order _ g0 x m sol HO F HX HT).
Qed.

Theorem C102_train_replaces_word2vec : forall o h b doc b', w2v_hist o h b ->
  (w2v_call lower exp o b doc b' (Ret tt) <-> w2v_call lower exp o (fresh (ob_lr b)) doc b' (Ret tt)).
Proof. intros o h b doc b' _. rewrite !w2v_call_ok. reflexivity. Qed.

Theorem C102_train_replaces_lexvec : forall o h b doc b', lxv_hist o h b ->
  (lxv_call lower flog fpow o b doc b' (Ret tt) <-> lxv_call lower flog fpow o (fresh (ob_lr b)) doc b' (Ret tt)).
Proof. intros o h b doc b' _. rewrite !lxv_call_ok. reflexivity. Qed.

(** C102. Hence, whatever happened before, the object after a successful Train is a trained model in the
    sense of the other properties: its words, its vectors and what it saves. *)
Theorem C102_word2vec : forall o h b doc, w2v_hist o (h ++ [(doc, Ret tt)]) b ->
  exists rand next lr w, w2v_trained exp lower rand next lr o doc w /\ (h = [] -> lr = w2v_Initlr o) /\
    (forall typ, w2v_vectors o b typ = w2v_word_vector o w typ) /\
    (forall W (wr : writer W) cut typ st, obj_save wr cut (w2v_vectors o) (w2v_Verbose o) (w2v_LogBatch o) b typ st =
       model_save wr cut (c_dic (wv_corpus w)) (w2v_word_vector o w) (w2v_Verbose o) (w2v_LogBatch o) typ st).
Proof.
  intros o h b doc H. remember (h ++ [(doc, Ret tt)]) as h' eqn:Eh. destruct H as [|h1 b0 d1 b' r H C]; [destruct h; discriminate Eh|].
  apply app_inj_tail in Eh. destruct Eh as [-> Eh]. injection Eh as -> ->.
  apply w2v_call_ok in C. destruct C as (rand & next & w0 & x & v & HS & Hx & HT & ->).
  exists rand, next, (ob_lr b0), (W2v (wv_corpus w0) (wv_m v) (wv_samples w0) (wv_mod w0) (wv_o v)).
  split; [exists w0, x, v; auto|]. split.
  { intros ->. remember [] as h0 eqn:Eh. destruct H as [|h2 b2 d2 b3 r2 H2 C2]; [reflexivity|]. destruct h2; discriminate Eh. }
  assert (V : forall typ, w2v_vectors o (Obj (Some (wv_corpus w0)) (Some (wv_m v)) (Some (wv_o v)) (wv_lr v)) typ =
    w2v_word_vector o (W2v (wv_corpus w0) (wv_m v) (wv_samples w0) (wv_mod w0) (wv_o v)) typ).
  { intros typ. unfold w2v_vectors, w2v_word_vector. cbn [ob_corpus ob_aux ob_param wv_corpus wv_opt wv_param]. destruct (wv_o v); reflexivity. }
  split; [exact V|]. intros W wr cut typ st. unfold obj_save, model_save. cbn [ob_corpus wv_corpus]. rewrite V. reflexivity.
Qed.

Theorem C102_glove : forall o h b doc, glv_hist o (h ++ [(doc, Ret tt)]) b ->
  exists rand order g, (forall l, Permutation (order l) l) /\ glv_trained lower rand flog fpow order o doc g /\
    (forall typ, pair_vectors (glv_Dim o) b typ = glv_word_vector o g typ) /\
    (forall W (wr : writer W) cut typ st, obj_save wr cut (pair_vectors (glv_Dim o)) (glv_Verbose o) (glv_LogBatch o) b typ st =
       model_save wr cut (gl_dic g) (glv_word_vector o g) (glv_Verbose o) (glv_LogBatch o) typ st).
Proof.
  intros o h b doc H. remember (h ++ [(doc, Ret tt)]) as h' eqn:Eh. destruct H as [|h1 b0 d1 b' r H C]; [destruct h; discriminate Eh|].
  apply app_inj_tail in Eh. destruct Eh as [-> Eh]. injection Eh as -> ->.
  inversion C as [|rand order b1 g0 x m sol HO HP HX HT E1 E2]; subst. destruct (glv_prepare_Ret _ _ _ _ _ _ _ _ _ _ HP) as (c & Ec & -> & _).
  pose proof (glv_prepare_snd lower flog fpow rand order o doc b0) as HS. rewrite HP in HS. cbn [snd] in HS. cbn [ob_corpus ob_lr].
  exists rand, order, (Glv (gl_dic g0) m sol (gl_items g0)). split; [assumption|]. split; [exists g0, x, m, sol; auto|].
  assert (V : forall typ, pair_vectors (glv_Dim o) (Obj (Some c) (Some m) (Some sol) (ob_lr b0)) typ = glv_word_vector o (Glv (gl_dic g0) m sol (gl_items g0)) typ).
  { intros typ. unfold pair_vectors, glv_word_vector. cbn [ob_corpus ob_param gl_dic gl_param]. rewrite Ec. reflexivity. }
  split; [exact V|]. intros W wr cut typ st. unfold obj_save, model_save. cbn [ob_corpus gl_dic]. rewrite V, Ec. reflexivity.
Qed.

Theorem C102_lexvec : forall o h b doc, lxv_hist o (h ++ [(doc, Ret tt)]) b ->
  exists rand order next lr l, (forall l, Permutation (order l) l) /\ lxv_trained lower rand flog fpow order next lr o doc l /\ (h = [] -> lr = lex_Initlr o) /\
    (forall typ, pair_vectors (lex_Dim o) b typ = lxv_word_vector o l typ) /\
    (forall W (wr : writer W) cut typ st, obj_save wr cut (pair_vectors (lex_Dim o)) (lex_Verbose o) (lex_LogBatch o) b typ st =
       model_save wr cut (c_dic (lx_corpus l)) (lxv_word_vector o l) (lex_Verbose o) (lex_LogBatch o) typ st).
Proof.
  intros o h b doc H. remember (h ++ [(doc, Ret tt)]) as h' eqn:Eh. destruct H as [|h1 b0 d1 b' r H C]; [destruct h; discriminate Eh|].
  apply app_inj_tail in Eh. destruct Eh as [-> Eh]. injection Eh as -> ->.
  apply lxv_call_ok in C. destruct C as (rand & order & next & l0 & x & v & HP & HS & Hx & HT & ->).
  exists rand, order, next, (ob_lr b0), (Lxv (lx_corpus l0) (lv_m v) (lx_samples l0) (lx_items l0)).
  split; [exact HP|]. split; [exists l0, x, v; auto|]. split.
  { intros ->. remember [] as h0 eqn:Eh. destruct H as [|h2 b2 d2 b3 r2 H2 C2]; [reflexivity|]. destruct h2; discriminate Eh. }
  assert (V : forall typ, pair_vectors (lex_Dim o) (Obj (Aux := unit) (Some (lx_corpus l0)) (Some (lv_m v)) None (lv_lr v)) typ =
    lxv_word_vector o (Lxv (lx_corpus l0) (lv_m v) (lx_samples l0) (lx_items l0)) typ).
  { intros typ. reflexivity. }
  split; [exact V|]. intros W wr cut typ st. unfold obj_save, model_save. cbn [ob_corpus lx_corpus]. rewrite V. reflexivity.
Qed.

(** C102. After any number of calls the learning rate is still in range (failed calls do not change it). *)
Theorem C102_rate_lexvec : forall o h b, lxv_hist o h b ->
  Forall (fun p => snd p = Ret tt -> exists all, lxv_usable lower o (fst p) all /\ 1 <= Z.of_nat (length all) <= 2 ^ 53) h ->
  is_fin (lex_Initlr o) = true -> (0 <= f2r (lex_Initlr o))%R -> is_fin (lex_MinLR o) = true -> (0 <= f2r (lex_MinLR o))%R ->
  P23_Runs.rate_ok (lex_Initlr o) (lex_MinLR o) (ob_lr b).
Proof.
  intros o h b H F I1 I2 M1 M2. induction H as [|h b doc b' r H IH C].
  - cbn [ob_lr fresh]. split; [exact I1|]. split; [exact I2|apply Rmax_l].
  - apply Forall_app in F. destruct F as [F F1]. specialize (IH F). destruct C as [rand order b3 e HP|rand order next b3 l0 x v HO HP HX HT].
    + destruct (lxv_prepare_Err _ _ _ _ _ _ _ _ _ _ HP) as (c & _ & E & _). rewrite E. exact IH.
    + inversion F1 as [|p l F2 F3]; subst. destruct (F2 eq_refl) as (all & HU & HL). cbn [fst] in HU.
      pose proof (lxv_prepare_snd lower flog fpow rand order o doc b) as HS. rewrite HP in HS. cbn [snd] in HS. symmetry in HS.
      pose proof (lxv_prepare_Ret _ _ _ _ _ _ _ _ _ _ HP) as ->. cbn [ob_lr] in HT |- *. destruct HT as (ls & HR & _).
      exact (P23_Runs.C81_lexvec_rate lower rand flog fpow order o doc all l0 x next (ob_lr b) HO HU HS HX I1 I2 M1 M2 HL IH ls v HR).
Qed.

Theorem C102_rate_word2vec : forall o h b, w2v_hist o h b ->
  Forall (fun p => snd p = Ret tt -> exists all, w2v_usable lower o (fst p) all /\ 1 <= Z.of_nat (length all) <= 2 ^ 53) h ->
  is_fin (w2v_Initlr o) = true -> (0 <= f2r (w2v_Initlr o))%R -> is_fin (w2v_MinLR o) = true -> (0 <= f2r (w2v_MinLR o))%R ->
  P23_Runs.rate_ok (w2v_Initlr o) (w2v_MinLR o) (ob_lr b).
Proof.
  intros o h b H F I1 I2 M1 M2. induction H as [|h b doc b' r H IH C].
  - cbn [ob_lr fresh]. split; [exact I1|]. split; [exact I2|apply Rmax_l].
  - apply Forall_app in F. destruct F as [F F1]. specialize (IH F). destruct C as [rand b3 e HP|rand next b3 w0 x v HP HX HT].
    + destruct (w2v_prepare_Err _ _ _ _ _ _ _ HP) as (c & _ & _ & E & _). rewrite E. exact IH.
    + inversion F1 as [|p l F2 F3]; subst. destruct (F2 eq_refl) as (all & HU & HL). cbn [fst] in HU.
      pose proof (w2v_prepare_snd lower rand o doc b) as HS. rewrite HP in HS. cbn [snd] in HS. symmetry in HS.
      pose proof (w2v_prepare_Ret _ _ _ _ _ _ _ HP) as ->. cbn [ob_lr] in HT |- *. destruct HT as (ls & HR & _).
      exact (P23_Runs.C81_word2vec_rate exp lower rand o doc all w0 x next (ob_lr b) HU HS HX I1 I2 M1 M2 HL IH ls v HR).
Qed.

(** C102. A Train that fails because the text cannot be read to the end leaves a mixture: the words are
    those of the new text (up to the failure), the parameters those of before. WordVector then gives word
    number q of the new text the vector of word number q of the old text; with more new words than old
    parameter rows it panics. (word2vec with type single; the words of the unreadable text are [all].) *)
Definition unreadable (verbose : bool) (log_batch : Z) (doc : reader) (all : list gostring) : Prop :=
  (verbose = false \/ log_batch <> 0) /\ tokens (rd_data doc) all /\ Forall (fun w : gostring => Z.of_nat (length w) <= 65533) all /\ rd_err doc = true.

Theorem C102_failed_word2vec : forall o b doc all b' r dim rows,
  unreadable (w2v_Verbose o) (w2v_LogBatch o) doc all -> w2v_call lower exp o b doc b' r ->
  ob_param b = Some (of_rows dim rows) -> all_len dim rows -> w2v_Dim o = Z.of_nat dim ->
  let words := distinct (used_words lower (w2v_ToLower o) all) in
  r = Err "read error"%string /\
  ((length words <= length rows)%nat ->
     w2v_vectors o b' "single" = Ret (of_rows dim (firstn (length words) rows)) /\
     forall cut, (forall t, concat (cut t) = t) ->
       obj_save good_writer cut (w2v_vectors o) (w2v_Verbose o) (w2v_LogBatch o) b' "single" [] = (saved_text words (firstn (length words) rows), Ret tt)) /\
  ((length rows < length words)%nat -> (1 <= dim)%nat -> w2v_vectors o b' "single" = Panic).
Proof.
  intros o b doc all b' r dim rows (HV & HT & HF & HE) C EP A ED words.
  assert (P : forall rand, exists c, w2v_prepare lower rand o doc b = (set_corpus b c, Err err_read) /\ c_dic c = dict_add dict_new (used_words lower (w2v_ToLower o) all)).
  { intros rand. destruct (load_step_read_error lower (w2v_DocInMemory o) (w2v_ToLower o) (w2v_MaxCount o) (w2v_MinCount o) (w2v_Verbose o) (w2v_LogBatch o) None doc all b HV HT HF HE) as (c & E & Ed).
    exists c. unfold w2v_prepare. rewrite E. auto. }
  destruct C as [rand b3 e HP|rand next b3 w0 x v HP HX HTr]; destruct (P rand) as (c & E & Ed); rewrite E in HP; [|discriminate HP]. injection HP as <- <-.
  split; [reflexivity|].
  assert (DL : dict_len (c_dic c) = length words) by (rewrite Ed; apply TrainProps.dict_len_distinct).
  assert (V1 : w2v_vectors o (set_corpus b c) "single" = vec_matrix (Z.of_nat (length words)) (Z.of_nat dim) (nil_cell (Some (of_rows dim rows)))).
  { unfold w2v_vectors. cbn [ob_corpus set_corpus ob_aux ob_param]. rewrite DL, EP, ED. destruct (ob_aux b) as [[ctx k|h s d]|]; reflexivity. }
  split.
  - intros L. assert (V : w2v_vectors o (set_corpus b c) "single" = Ret (of_rows dim (firstn (length words) rows))).
    { rewrite V1, <- table_firstn with (dim := dim) by auto. apply vec_matrix_spec. intros q j Hq Hj. cbn [nil_cell]. apply Cells.cell_at; auto; lia. }
    split; [exact V|]. intros cut Hc. unfold obj_save, model_save. cbn [ob_corpus set_corpus]. fold (set_corpus b c). rewrite V, Ed.
    rewrite save_ok; [rewrite bufio_good, Hc; reflexivity| | |exact HV].
    + unfold all_len in *. rewrite <- (firstn_skipn (length words) rows) in A. apply Forall_app in A. apply A.
    + rewrite firstn_length. fold words. lia.
  - intros L Hd. rewrite V1. apply vec_matrix_panics with (q := length rows); auto; [intros; apply no_err_nil|]. cbn [nil_cell]. apply cell_out; auto.
Qed.

(** C102. The same for GloVe ([col] = Dim + 1) and LexVec ([col] = Dim) with type agg. *)
Theorem C102_failed_glove : forall o b doc all b' r dim rows,
  unreadable (glv_Verbose o) (glv_LogBatch o) doc all -> glv_call lower flog fpow o b doc b' r ->
  ob_param b = Some (of_rows (S dim) rows) -> all_len (S dim) rows -> glv_Dim o = Z.of_nat dim ->
  let words := distinct (used_words lower (glv_ToLower o) all) in
  r = Err "read error"%string /\
  ((length words <= length rows)%nat ->
     exists out, pair_vectors (glv_Dim o) b' "agg" = Ret (of_rows dim out) /\ length out = length words /\ all_len dim out /\
       forall q j, (q < length words)%nat -> (j < dim)%nat -> nth j (nth q out []) fzero = nth j (nth q rows []) fzero) /\
  ((length rows < length words)%nat -> (1 <= dim)%nat -> pair_vectors (glv_Dim o) b' "agg" = Panic).
Proof.
  intros o b doc all b' r dim rows (HV & HT & HF & HE) C EP A ED words.
  assert (P : forall rand order, exists c, glv_prepare lower flog fpow rand order o doc b = (set_corpus b c, Err err_read) /\ c_dic c = dict_add dict_new (used_words lower (glv_ToLower o) all)).
  { intros rand order. destruct (load_step_read_error lower (glv_DocInMemory o) (glv_ToLower o) (glv_MaxCount o) (glv_MinCount o) (glv_Verbose o) (glv_LogBatch o) (Some {| w_type := glv_CountType o; w_window := glv_Window o |}) doc all b HV HT HF HE) as (c & E & Ed).
    exists c. unfold glv_prepare. rewrite E. auto. }
  destruct C as [rand order b3 e HP|rand order' b3 g0 x m sol HO HP HX HTr]; [destruct (P rand order) as (c & E & Ed)|destruct (P rand order') as (c & E & Ed)]; rewrite E in HP; [|discriminate HP]. injection HP as <- <-.
  split; [reflexivity|].
  assert (DL : dict_len (c_dic c) = length words) by (rewrite Ed; apply TrainProps.dict_len_distinct).
  assert (V1 : pair_vectors (glv_Dim o) (set_corpus b c) "agg" = vec_matrix (Z.of_nat (length words)) (Z.of_nat dim) (nil_cell (Some (of_rows (S dim) rows)))).
  { unfold pair_vectors. cbn [ob_corpus set_corpus ob_param]. rewrite DL, EP, ED. reflexivity. }
  split.
  - intros L. eexists. split; [rewrite V1; apply vec_matrix_spec; intros q j Hq Hj; cbn [nil_cell]; apply Cells.cell_at; auto; lia|]. apply table_ok.
  - intros L Hd. rewrite V1. apply vec_matrix_panics with (q := length rows); auto; [intros; apply no_err_nil|]. cbn [nil_cell]. apply cell_out; auto.
Qed.

Theorem C102_failed_lexvec : forall o b doc all b' r dim rows,
  unreadable (lex_Verbose o) (lex_BatchSize o) doc all -> lxv_call lower flog fpow o b doc b' r ->
  ob_param b = Some (of_rows dim rows) -> all_len dim rows -> lex_Dim o = Z.of_nat dim ->
  let words := distinct (used_words lower (lex_ToLower o) all) in
  r = Err "read error"%string /\
  ((length words <= length rows)%nat -> pair_vectors (lex_Dim o) b' "agg" = Ret (of_rows dim (firstn (length words) rows))) /\
  ((length rows < length words)%nat -> (1 <= dim)%nat -> pair_vectors (lex_Dim o) b' "agg" = Panic).
Proof.
  intros o b doc all b' r dim rows (HV & HT & HF & HE) C EP A ED words.
  assert (P : forall rand order, exists c, lxv_prepare lower flog fpow rand order o doc b = (set_corpus b c, Err err_read) /\ c_dic c = dict_add dict_new (used_words lower (lex_ToLower o) all)).
  { intros rand order. destruct (load_step_read_error lower (lex_DocInMemory o) (lex_ToLower o) (lex_MaxCount o) (lex_MinCount o) (lex_Verbose o) (lex_BatchSize o) (Some {| w_type := increment; w_window := lex_Window o |}) doc all b HV HT HF HE) as (c & E & Ed).
    exists c. unfold lxv_prepare. rewrite E. auto. }
  destruct C as [rand order b3 e HP|rand order' next b3 l0 x v HO HP HX HTr]; [destruct (P rand order) as (c & E & Ed)|destruct (P rand order') as (c & E & Ed)]; rewrite E in HP; [|discriminate HP]. injection HP as <- <-.
  split; [reflexivity|].
  assert (DL : dict_len (c_dic c) = length words) by (rewrite Ed; apply TrainProps.dict_len_distinct).
  assert (V1 : pair_vectors (lex_Dim o) (set_corpus b c) "agg" = vec_matrix (Z.of_nat (length words)) (Z.of_nat dim) (nil_cell (Some (of_rows dim rows)))).
  { unfold pair_vectors. cbn [ob_corpus set_corpus ob_param]. rewrite DL, EP, ED. reflexivity. }
  split.
  - intros L. rewrite V1, <- table_firstn with (dim := dim) by auto. apply vec_matrix_spec. intros q j Hq Hj. cbn [nil_cell]. apply Cells.cell_at; auto; lia.
  - intros L Hd. rewrite V1. apply vec_matrix_panics with (q := length rows); auto; [intros; apply no_err_nil|]. cbn [nil_cell]. apply cell_out; auto.
Qed.
End Calls.
Print Assumptions C102_before_train.
Print Assumptions C102_train_replaces_glove.
Print Assumptions C102_train_replaces_word2vec.
Print Assumptions C102_train_replaces_lexvec.
Print Assumptions C102_word2vec.
Print Assumptions C102_glove.
Print Assumptions C102_lexvec.
Print Assumptions C102_rate_lexvec.
Print Assumptions C102_rate_word2vec.
Print Assumptions C102_failed_word2vec.
Print Assumptions C102_failed_glove.
Print Assumptions C102_failed_lexvec.

(** C102. Because the rate is not reset, training one object twice differs from training two new objects:
    here (LexVec, one goroutine, one pass over "a b a", rate updated every 3 words) the first Train trains
    and leaves the rate 0, and the second one returns the random start of the vectors untouched. *)
Definition again_opts : lex_opts := lex_new 1 [L_Dim 1; L_MinCount 0; L_DocInMemory; L_Iter 1; L_Relation "co"; L_UpdateLRBatch 3].
Definition same_cells (m m' : matrix) : bool := forallb (fun p => feq (fst p) (snd p)) (combine (m_array m) (m_array m')).
Theorem C102_second_training_void :
  let id := fun w : gostring => w in let rand := fun _ : nat => fzero in
  let hist := history (lxv_call id (fun x => x) (fun x _ => x) again_opts) (lex_Initlr again_opts) in
  lxv_usable id again_opts P23_Runs.aba P23_Runs.aba_words /\
  exists l0 b1 b2 m1 m2, lxv_setup id rand (fun x => x) (fun x _ => x) (fun m => m) again_opts P23_Runs.aba = Ret l0 /\
    hist [(P23_Runs.aba, Ret tt)] b1 /\ hist [(P23_Runs.aba, Ret tt); (P23_Runs.aba, Ret tt)] b2 /\
    ob_param b1 = Some m1 /\ ob_param b2 = Some m2 /\ length (m_array m2) = length (m_array (lx_param l0)) /\
    same_cells (lx_param l0) m1 = false /\ same_cells (lx_param l0) m2 = true /\ m_row m1 = 4 /\ m_col m1 = 1 /\ length (m_array m1) = 4%nat.
Proof.
  intros id rand hist. split.
  { constructor; cbn -[Z.mul Z.pow]; auto using P23_Runs.aba_readable; try lia; try tauto; vm_compute; (reflexivity || discriminate). }
  pose (setup := lxv_setup id rand (fun x => x) (fun x _ => x) (fun m => m) again_opts P23_Runs.aba).
  assert (SR : match setup with Ret _ => true | _ => false end = true) by (vm_compute; reflexivity).
  destruct setup as [l0|e|] eqn:ES; [|discriminate SR|discriminate SR]. clear SR.
  set (E := lxv_effects rand again_opts l0).
  set (f := lxv_step again_opts (lx_items l0) (Z.of_nat (dict_len (c_dic (lx_corpus l0))))).
  set (chunks := [[0; 1; 0]]%nat).
  assert (SX : lxv_source id again_opts l0 = Ret (Mem chunks)).
  { assert (T : match setup with Ret l => lxv_source id again_opts l = Ret (Mem chunks) | _ => True end)
      by (vm_compute; reflexivity). rewrite ES in T. exact T. }
  pose (w := Proofs.Follow.Word 0). pose (r := Proofs.Follow.Report 0). pose (u := Proofs.Follow.Update).
  pose (run lr := Proofs.Follow.follow E chunks f [w; r; u; w; r; u; w; r; u] (map (@WRun nat) chunks, ORecv 0, [], lxv_start 1 lr l0)).
  assert (OK : forall (b : lxv_obj) ws n lg v, run (ob_lr b) = Ret (ws, ORecv n, lg, v) -> ws = map (fun _ => WRun []) chunks ->
    lxv_call id (fun x => x) (fun x _ => x) again_opts b P23_Runs.aba (Obj (Some (lx_corpus l0)) (Some (lv_m v)) None (lv_lr v)) (Ret tt)).
  { intros b ws n lg v HR ->. apply lxv_call_ok. exists rand, (fun m => m), 1, l0, (Mem chunks), v. split; [intros; apply Permutation_refl|]. split; [exact ES|]. split; [exact SX|]. split; [|reflexivity].
    change (Z.to_nat (lex_Iter again_opts)) with 1%nat.
    apply (Proofs.Follow.follow_trains (lxv_cfg again_opts) E chunks f [w; r; u; w; r; u; w; r; u] _ n lg v); [reflexivity|reflexivity|exact (Nat.le_refl 1)|exact Nat.lt_0_1|exact HR]. }
  assert (T : match run (lex_Initlr again_opts) with
              | Ret (ws, ORecv n, lg, v) => ws = [WRun []] /\ same_cells (lx_param l0) (lv_m v) = false /\ (m_row (lv_m v) = 4 /\ m_col (lv_m v) = 1 /\ length (m_array (lv_m v)) = 4%nat) /\
                  match run (lv_lr v) with
                  | Ret (ws', ORecv n', lg', v') => ws' = [WRun []] /\ same_cells (lx_param l0) (lv_m v') = true /\ length (m_array (lv_m v')) = length (m_array (lx_param l0))
                  | _ => False end
              | _ => False end).
  { subst run E f. clear OK SX. cbv beta.
    assert (T : match setup with
      | Ret l0 => let E := lxv_effects rand again_opts l0 in let f := lxv_step again_opts (lx_items l0) (Z.of_nat (dict_len (c_dic (lx_corpus l0)))) in
          let run lr := Proofs.Follow.follow E chunks f [w; r; u; w; r; u; w; r; u] (map (@WRun nat) chunks, ORecv 0, [], lxv_start 1 lr l0) in
          match run (lex_Initlr again_opts) with
              | Ret (ws, ORecv n, lg, v) => ws = [WRun []] /\ same_cells (lx_param l0) (lv_m v) = false /\ (m_row (lv_m v) = 4 /\ m_col (lv_m v) = 1 /\ length (m_array (lv_m v)) = 4%nat) /\
                  match run (lv_lr v) with
                  | Ret (ws', ORecv n', lg', v') => ws' = [WRun []] /\ same_cells (lx_param l0) (lv_m v') = true /\ length (m_array (lv_m v')) = length (m_array (lx_param l0))
                  | _ => False end
              | _ => False end
      | _ => True end) by (vm_compute; auto 10). rewrite ES in T. exact T. }
  destruct (run (lex_Initlr again_opts)) as [[[[ws [n|n|n]] lg] v]|e|] eqn:R1; try contradiction.
  destruct T as (-> & D & (D1 & D2 & D3) & T). destruct (run (lv_lr v)) as [[[[ws' [n'|n'|n']] lg'] v']|e|] eqn:R2; try contradiction.
  destruct T as (-> & S2 & L2).
  pose proof (OK (fresh (lex_Initlr again_opts)) _ _ _ _ R1 eq_refl) as C1.
  pose proof (h_train _ _ [] _ _ _ _ (h_new (lxv_call id (fun x => x) (fun x _ => x) again_opts) (lex_Initlr again_opts)) C1) as H1.
  pose proof (OK (Obj (Some (lx_corpus l0)) (Some (lv_m v)) None (lv_lr v)) _ _ _ _ R2 eq_refl) as C2.
  pose proof (h_train _ _ _ _ _ _ _ H1 C2) as H2.
  exists l0. eexists. eexists. exists (lv_m v), (lv_m v'). split; [exact ES|]. split; [exact H1|]. split; [exact H2|]. auto 10.
Qed.
Print Assumptions C102_second_training_void.

(** A history meeting the hypotheses of C102_failed_lexvec: training on "a b a" as above, then on the same
    text from a reader that fails at the end. *)
Definition aba_broken : reader := {| rd_data := bs "a b a"; rd_pos := 0; rd_err := true |}.
Example C102_case : let id := fun w : gostring => w in
  unreadable false 100000 aba_broken P23_Runs.aba_words /\
  exists b b' rows, history (lxv_call id (fun x => x) (fun x _ => x) again_opts) (lex_Initlr again_opts) [(P23_Runs.aba, Ret tt); (aba_broken, Err "read error"%string)] b' /\
    ob_param b = Some (of_rows 1 rows) /\ all_len 1 rows /\ length rows = 4%nat /\
    lxv_call id (fun x => x) (fun x _ => x) again_opts b aba_broken b' (Err "read error"%string).
Proof.
  assert (U : unreadable false 100000 aba_broken P23_Runs.aba_words).
  { destruct (P23_Runs.aba_readable 100000) as (_ & T & _ & F). split; [auto|]. split; [exact T|]. split; [exact F|reflexivity]. }
  split; [exact U|].
  destruct C102_second_training_void as (HU & l0 & b1 & b2 & m1 & m2 & ES & H1 & _ & E1 & _ & _ & _ & _ & R1 & R2 & R3).
  destruct m1 as [arr row col]. cbn [m_row m_col m_array] in R1, R2, R3. subst row col.
  assert (HV : lex_Verbose again_opts = false \/ lex_BatchSize again_opts <> 0) by (left; reflexivity).
  destruct U as (_ & HT & HF & HE). destruct (load_step_read_error (fun w => w) (lex_DocInMemory again_opts) (lex_ToLower again_opts) (lex_MaxCount again_opts) (lex_MinCount again_opts) (lex_Verbose again_opts) (lex_BatchSize again_opts)
    (Some {| w_type := increment; w_window := lex_Window again_opts |}) aba_broken P23_Runs.aba_words b1 HV HT HF HE) as (c & EL & _).
  assert (C : lxv_call (fun w => w) (fun x => x) (fun x _ => x) again_opts b1 aba_broken (set_corpus b1 c) (Err "read error"%string)).
  { apply (lxv_fails _ _ _ _ _ _ (fun _ => fzero) (fun m => m)). unfold lxv_prepare. rewrite EL. reflexivity. }
  pose proof (h_train _ _ _ _ _ _ _ H1 C) as H2.
  exists b1, (set_corpus b1 c), (map (fun x => [x]) arr). split; [exact H2|].
  assert (CC : concat (map (fun x : f64 => [x]) arr) = arr) by (clear; induction arr as [|x arr IH]; [reflexivity|cbn [map concat app]; rewrite IH; reflexivity]).
  split; [rewrite E1; unfold of_rows; rewrite CC, map_length, R3; reflexivity|]. split; [|split; [rewrite map_length; exact R3|exact C]].
  unfold all_len. clear. induction arr; constructor; auto.
Qed.
