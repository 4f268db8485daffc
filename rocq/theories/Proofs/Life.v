From Coq Require Import Lia Sorting.Permutation.
From Verif.Lib Require Import Go F64 ListFacts Tac.
From Verif.Spec Require Import Words Tokens Rows Readable Saved.
From Verif.Model Require Import Dictionary Corpus Reader Matrix Cells Subsample Huffman Word2vec Glove Lexvec Cooc Options Train Sigmoid LearningRate Sched Run Vector Life.
From Verif.Proofs Require Import Matrix Word2vec Cells Vector.
From Verif.Proofs Require Corpus Reader Dictionary.
Local Open Scope Z_scope.

Section Any.
Variable lower : gostring -> gostring.

Lemma load_step_snd {Aux} mem tl mx mn vb lb w doc (b : obj Aux) :
  snd (load_step lower mem tl mx mn vb lb w doc b) = load_corpus lower mem tl mx mn vb lb w doc.
Proof. unfold load_step, load_corpus. destruct ((if mem then mem_load lower vb lb else fs_load lower vb lb) (corpus_new doc tl mx mn) w). reflexivity. Qed.
Lemma load_step_Ret {Aux} mem tl mx mn vb lb w doc (b b' : obj Aux) c :
  load_step lower mem tl mx mn vb lb w doc b = (b', Ret c) -> b' = set_corpus b c.
Proof.
  unfold load_step. destruct ((if mem then mem_load lower vb lb else fs_load lower vb lb) (corpus_new doc tl mx mn) w) as [c' [u|e|]]; cbn [obind]; try (intros E; discriminate E).
  intros E. injection E as <- <-. reflexivity.
Qed.
Lemma load_step_Err {Aux} mem tl mx mn vb lb w doc (b b' : obj Aux) e :
  load_step lower mem tl mx mn vb lb w doc b = (b', Err e) -> exists c, b' = set_corpus b c.
Proof.
  unfold load_step. destruct ((if mem then mem_load lower vb lb else fs_load lower vb lb) (corpus_new doc tl mx mn) w) as [c' [u|e'|]]; cbn [obind]; try (intros E; discriminate E).
  intros E. injection E as <- <-. eauto.
Qed.

Ltac case_if t := match goal with |- context [if String.eqb t ?a then ?x else ?y] => destruct (if String.eqb t a then x else y) as [?|?|] end.

(** ** word2vec *)
Lemma w2v_prepare_snd rand o doc b : snd (w2v_prepare lower rand o doc b) = w2v_setup lower rand o doc.
Proof.
  unfold w2v_prepare, w2v_setup. rewrite <- (load_step_snd _ _ _ _ _ _ _ _ b).
  destruct (load_step _ _ _ _ _ _ _ _ _ b) as [b1 [c|e|]]; cbn [sbind snd obind]; try reflexivity.
  destruct (mat_new _ _ _ 0%nat) as [[k param]|e|]; cbn [sbind snd obind]; try reflexivity.
  destruct (subsample_new _ _) as [s|e|]; cbn [sbind snd obind]; try reflexivity.
  case_if (w2v_ModelType o); cbn [sbind snd obind]; try reflexivity.
  case_if (w2v_OptimizerType o); cbn [sbind snd obind]; reflexivity.
Qed.
Lemma w2v_prepare_Ret rand o doc b b' w0 : w2v_prepare lower rand o doc b = (b', Ret w0) ->
  b' = Obj (Some (wv_corpus w0)) (Some (wv_param w0)) (Some (wv_opt w0)) (ob_lr b).
Proof.
  unfold w2v_prepare. destruct (load_step _ _ _ _ _ _ _ _ _ b) as [b1 [c|e|]] eqn:L; cbn [sbind]; try (intros E; discriminate E).
  apply load_step_Ret in L. subst b1.
  destruct (mat_new _ _ _ 0%nat) as [[k param]|e|]; cbn [sbind]; try (intros E; discriminate E).
  destruct (subsample_new _ _) as [s|e|]; cbn [sbind]; try (intros E; discriminate E).
  case_if (w2v_ModelType o); cbn [sbind]; try (intros E; discriminate E).
  case_if (w2v_OptimizerType o); cbn [sbind]; intros E; [|discriminate E|discriminate E].
  injection E as <- <-. reflexivity.
Qed.
Lemma w2v_prepare_Err rand o doc b b' e : w2v_prepare lower rand o doc b = (b', Err e) ->
  exists c, ob_corpus b' = Some c /\ ob_aux b' = ob_aux b /\ ob_lr b' = ob_lr b /\
    ((exists u, load_corpus lower (w2v_DocInMemory o) (w2v_ToLower o) (w2v_MaxCount o) (w2v_MinCount o) (w2v_Verbose o) (w2v_LogBatch o) None doc = Err u) -> ob_param b' = ob_param b).
Proof.
  unfold w2v_prepare. rewrite <- (load_step_snd _ _ _ _ _ _ _ _ b). destruct (load_step _ _ _ _ _ _ _ _ _ b) as [b1 [c|e1|]] eqn:L; cbn [sbind snd].
  - apply load_step_Ret in L. subst b1.
    destruct (mat_new _ _ _ 0%nat) as [[k param]|e1|]; cbn [sbind].
    + destruct (subsample_new _ _) as [s|e1|]; cbn [sbind]; [|intros E; injection E as <- <-|intros E; discriminate E].
      * case_if (w2v_ModelType o); cbn [sbind]; [|intros E; injection E as <- <-|intros E; discriminate E].
        { case_if (w2v_OptimizerType o); cbn [sbind]; intros E; [discriminate E|injection E as <- <-|discriminate E].
          exists c. repeat split. intros [u U]; discriminate U. }
        { exists c. repeat split. intros [u U]; discriminate U. }
      * exists c. repeat split. intros [u U]; discriminate U.
    + intros E; injection E as <- <-. exists c. repeat split.
    + intros E; discriminate E.
  - intros E. injection E as <- <-. apply load_step_Err in L. destruct L as (c & ->). exists c. repeat split.
  - intros E; discriminate E.
Qed.
Lemma w2v_prepare_of rand o doc b w0 : w2v_setup lower rand o doc = Ret w0 ->
  w2v_prepare lower rand o doc b = (Obj (Some (wv_corpus w0)) (Some (wv_param w0)) (Some (wv_opt w0)) (ob_lr b), Ret w0).
Proof.
  intros H. rewrite <- (w2v_prepare_snd rand o doc b) in H. destruct (w2v_prepare lower rand o doc b) as [b' r] eqn:E. cbn [snd] in H. subst r.
  rewrite (w2v_prepare_Ret _ _ _ _ _ _ E). reflexivity.
Qed.
Lemma w2v_call_ok exp o b doc b' : w2v_call lower exp o b doc b' (Ret tt) <->
  exists rand next w0 x v, w2v_setup lower rand o doc = Ret w0 /\ w2v_source lower o w0 = Ret x /\
    trains (w2v_cfg o) (w2v_effects (sigmoid (sig_table exp)) rand o w0) (Z.to_nat (w2v_Iter o)) (fun _ => x) (w2v_start next (ob_lr b) w0) v /\
    b' = Obj (Some (wv_corpus w0)) (Some (wv_m v)) (Some (wv_o v)) (wv_lr v).
Proof.
  split.
  - intros H. inversion H; subst. pose proof (w2v_prepare_Ret _ _ _ _ _ _ H0) as ->. exists rand, next, w0, x, v. cbn [ob_lr ob_corpus] in *.
    rewrite <- (w2v_prepare_snd rand o doc b), H0. auto.
  - intros (rand & next & w0 & x & v & HS & Hx & HT & ->). pose proof (w2v_prepare_of rand o doc b w0 HS) as HP.
    exact (w2v_succeeds lower exp o b doc rand next _ w0 x v HP Hx HT).
Qed.

(** ** GloVe, LexVec *)
Variables (flog : f64 -> f64) (fpow : f64 -> f64 -> f64).

Lemma glv_prepare_snd rand order o doc b : snd (glv_prepare lower flog fpow rand order o doc b) = glv_setup lower rand flog fpow order o doc.
Proof.
  unfold glv_prepare, glv_setup. rewrite <- (load_step_snd _ _ _ _ _ _ _ _ b).
  destruct (load_step _ _ _ _ _ _ _ _ _ b) as [b1 [c|e|]]; cbn [sbind snd obind]; try reflexivity.
  destruct (mat_new _ _ _ 0%nat) as [[k param]|e|]; cbn [sbind snd obind]; try reflexivity.
  case_if (glv_SolverType o); cbn [sbind snd obind]; reflexivity.
Qed.
Lemma glv_prepare_Ret rand order o doc b b' g0 : glv_prepare lower flog fpow rand order o doc b = (b', Ret g0) ->
  exists c, c_dic c = gl_dic g0 /\ b' = Obj (Some c) (Some (gl_param g0)) (Some (gl_solver g0)) (ob_lr b) /\
  forall b2, glv_prepare lower flog fpow rand order o doc b2 = (Obj (Some c) (Some (gl_param g0)) (Some (gl_solver g0)) (ob_lr b2), Ret g0).
Proof.
  unfold glv_prepare, load_step. destruct ((if glv_DocInMemory o then _ else _) _ _) as [c r].
  destruct r as [u|e|]; cbn [sbind obind]; try (intros E; discriminate E).
  destruct (mat_new _ _ _ 0%nat) as [[k param]|e|]; cbn [sbind]; try (intros E; discriminate E).
  case_if (glv_SolverType o); cbn [sbind]; try (intros E; discriminate E).
  destruct (c_cooc c) as [co|]; [|intros E; discriminate E]. destruct (make_items _ _ _ _ _ _ _) as [items|e|]; cbn [obind]; intros E; [|discriminate E|discriminate E].
  injection E as <- <-. exists c. repeat split.
Qed.
Lemma glv_prepare_Err rand order o doc b b' e : glv_prepare lower flog fpow rand order o doc b = (b', Err e) ->
  exists c, ob_corpus b' = Some c /\ ob_lr b' = ob_lr b /\
    ((exists u, load_corpus lower (glv_DocInMemory o) (glv_ToLower o) (glv_MaxCount o) (glv_MinCount o) (glv_Verbose o) (glv_LogBatch o) (Some {| w_type := glv_CountType o; w_window := glv_Window o |}) doc = Err u) -> ob_param b' = ob_param b).
Proof.
  unfold glv_prepare. rewrite <- (load_step_snd _ _ _ _ _ _ _ _ b). destruct (load_step _ _ _ _ _ _ _ _ _ b) as [b1 [c|e1|]] eqn:L; cbn [sbind snd].
  - apply load_step_Ret in L. subst b1. intros E. exists c.
    assert (N : (exists u, Ret c = Err u) -> ob_param b' = ob_param b) by (intros [u U]; discriminate U). revert E.
    destruct (mat_new _ _ _ 0%nat) as [[k param]|e1|]; cbn [sbind]; intros E; [|injection E as <- <-; auto|discriminate E]. revert E.
    case_if (glv_SolverType o); cbn [sbind]; intros E; [|injection E as <- <-; auto|discriminate E].
    injection E as <- _. auto.
  - intros E. injection E as <- <-. apply load_step_Err in L. destruct L as (c & ->). exists c. repeat split.
  - intros E; discriminate E.
Qed.

Lemma lxv_prepare_snd rand order o doc b : snd (lxv_prepare lower flog fpow rand order o doc b) = lxv_setup lower rand flog fpow order o doc.
Proof.
  unfold lxv_prepare, lxv_setup. rewrite <- (load_step_snd _ _ _ _ _ _ _ _ b).
  destruct (load_step _ _ _ _ _ _ _ _ _ b) as [b1 [c|e|]]; cbn [sbind snd obind]; try reflexivity.
  destruct (mat_new _ _ _ 0%nat) as [[k param]|e|]; cbn [sbind snd obind]; try reflexivity.
  destruct (subsample_new _ _) as [s|e|]; cbn [sbind snd obind]; reflexivity.
Qed.
Lemma lxv_prepare_Ret rand order o doc b b' l0 : lxv_prepare lower flog fpow rand order o doc b = (b', Ret l0) ->
  b' = Obj (Some (lx_corpus l0)) (Some (lx_param l0)) (ob_aux b) (ob_lr b).
Proof.
  unfold lxv_prepare. destruct (load_step _ _ _ _ _ _ _ _ _ b) as [b1 [c|e|]] eqn:L; cbn [sbind]; try (intros E; discriminate E).
  apply load_step_Ret in L. subst b1.
  destruct (mat_new _ _ _ 0%nat) as [[k param]|e|]; cbn [sbind]; try (intros E; discriminate E).
  destruct (subsample_new _ _) as [s|e|]; cbn [sbind]; try (intros E; discriminate E).
  destruct (c_cooc c) as [co|]; [|intros E; discriminate E]. destruct (lex_make_items _ _ _ _ _ _ _ _ _) as [items|e|]; cbn [obind]; intros E; [|discriminate E|discriminate E].
  injection E as <- <-. reflexivity.
Qed.
Lemma lxv_prepare_Err rand order o doc b b' e : lxv_prepare lower flog fpow rand order o doc b = (b', Err e) ->
  exists c, ob_corpus b' = Some c /\ ob_lr b' = ob_lr b /\
    ((exists u, load_corpus lower (lex_DocInMemory o) (lex_ToLower o) (lex_MaxCount o) (lex_MinCount o) (lex_Verbose o) (lex_BatchSize o) (Some {| w_type := increment; w_window := lex_Window o |}) doc = Err u) -> ob_param b' = ob_param b).
Proof.
  unfold lxv_prepare. rewrite <- (load_step_snd _ _ _ _ _ _ _ _ b). destruct (load_step _ _ _ _ _ _ _ _ _ b) as [b1 [c|e1|]] eqn:L; cbn [sbind snd].
  - apply load_step_Ret in L. subst b1. intros E. exists c.
    assert (N : (exists u, Ret c = Err u) -> ob_param b' = ob_param b) by (intros [u U]; discriminate U). revert E.
    destruct (mat_new _ _ _ 0%nat) as [[k param]|e1|]; cbn [sbind]; intros E; [|injection E as <- <-; auto|discriminate E]. revert E.
    destruct (subsample_new _ _) as [s|e1|]; cbn [sbind]; intros E; [|injection E as <- <-; auto|discriminate E].
    injection E as <- _. auto.
  - intros E. injection E as <- <-. apply load_step_Err in L. destruct L as (c & ->). exists c. repeat split.
  - intros E; discriminate E.
Qed.
Lemma glv_prepare_of rand order o doc b g0 : glv_setup lower rand flog fpow order o doc = Ret g0 ->
  exists c, c_dic c = gl_dic g0 /\ glv_prepare lower flog fpow rand order o doc b = (Obj (Some c) (Some (gl_param g0)) (Some (gl_solver g0)) (ob_lr b), Ret g0).
Proof.
  intros H. rewrite <- (glv_prepare_snd rand order o doc b) in H. destruct (glv_prepare lower flog fpow rand order o doc b) as [b' r] eqn:E. cbn [snd] in H. subst r.
  destruct (glv_prepare_Ret _ _ _ _ _ _ _ E) as (c & Hc & -> & _). eauto.
Qed.
Lemma lxv_prepare_of rand order o doc b l0 : lxv_setup lower rand flog fpow order o doc = Ret l0 ->
  lxv_prepare lower flog fpow rand order o doc b = (Obj (Some (lx_corpus l0)) (Some (lx_param l0)) (ob_aux b) (ob_lr b), Ret l0).
Proof.
  intros H. rewrite <- (lxv_prepare_snd rand order o doc b) in H. destruct (lxv_prepare lower flog fpow rand order o doc b) as [b' r] eqn:E. cbn [snd] in H. subst r.
  rewrite (lxv_prepare_Ret _ _ _ _ _ _ _ E). reflexivity.
Qed.
Lemma lxv_call_ok o b doc b' : lxv_call lower flog fpow o b doc b' (Ret tt) <->
  exists rand order next l0 x v, (forall l, Permutation (order l) l) /\ lxv_setup lower rand flog fpow order o doc = Ret l0 /\ lxv_source lower o l0 = Ret x /\
    trains (lxv_cfg o) (lxv_effects rand o l0) (Z.to_nat (lex_Iter o)) (fun _ => x) (lxv_start next (ob_lr b) l0) v /\
    b' = Obj (Some (lx_corpus l0)) (Some (lv_m v)) None (lv_lr v).
Proof.
  split.
  - intros H. inversion H; subst. pose proof (lxv_prepare_Ret _ _ _ _ _ _ _ H1) as ->. exists rand, order, next, l0, x, v. cbn [ob_lr ob_corpus] in *.
    rewrite <- (lxv_prepare_snd rand order o doc b), H1. auto.
  - intros (rand & order & next & l0 & x & v & HP & HS & Hx & HT & ->). pose proof (lxv_prepare_of rand order o doc b l0 HS) as HQ.
    exact (lxv_succeeds lower flog fpow o b doc rand order next _ l0 x v HP HQ Hx HT).
Qed.

(** A Load that meets a read error leaves the dictionary of the words before it. *)
Lemma load_read_error (mem tl : bool) mx mn vb lb w doc all : (vb = false \/ lb <> 0) -> tokens (rd_data doc) all -> Forall (fun w : gostring => Z.of_nat (length w) <= 65533) all -> rd_err doc = true ->
  exists c, (if mem then mem_load lower vb lb else fs_load lower vb lb) (corpus_new doc tl mx mn) w = (c, Err err_read) /\
    c_dic c = dict_add dict_new (used_words lower tl all).
Proof.
  intros Hr Ht Hf He. assert (R : report vb lb = Ret tt) by (unfold report; destruct vb; [|reflexivity]; destruct (Z.eqb_spec lb 0); [destruct Hr; [discriminate|contradiction]|reflexivity]).
  assert (RW : forall (fn : callback corpus gostring) c c', for_each fn c all = (c', Ret tt) -> read_word doc fn c = (c', Err err_read)).
  { intros fn c c' H. unfold read_word. rewrite (Reader.scanner_fits doc all Ht Hf), He, H. reflexivity. }
  assert (M : forall c0, c0 = corpus_new doc tl mx mn -> map (low lower c0) all = used_words lower tl all).
  { intros c0 ->. unfold low, used_words. cbn [c_lower corpus_new]. destruct tl; [reflexivity|apply map_id]. }
  destruct mem; unfold mem_load, fs_load; cbn [c_doc corpus_new]; fold (corpus_new doc tl mx mn).
  - eexists. rewrite (RW _ _ _ (Corpus.mem_pass lower vb lb R all (corpus_new doc tl mx mn) [] Dictionary.dict_repr_new)). split; [reflexivity|].
    cbn [Corpus.loaded c_dic corpus_new]. rewrite (M _ eq_refl). reflexivity.
  - eexists. rewrite (RW _ _ _ (Corpus.fs_pass lower vb lb R all (corpus_new doc tl mx mn))). split; [reflexivity|].
    cbn [Corpus.loaded c_dic corpus_new]. rewrite (M _ eq_refl). reflexivity.
Qed.
Lemma load_corpus_read_error mem tl mx mn vb lb w doc all : (vb = false \/ lb <> 0) -> tokens (rd_data doc) all -> Forall (fun w : gostring => Z.of_nat (length w) <= 65533) all -> rd_err doc = true ->
  load_corpus lower mem tl mx mn vb lb w doc = Err err_read.
Proof. intros Hr Ht Hf He. destruct (load_read_error mem tl mx mn vb lb w doc all Hr Ht Hf He) as (c & E & _). unfold load_corpus. rewrite E. reflexivity. Qed.
Lemma load_step_read_error {Aux} mem tl mx mn vb lb w doc all (b : obj Aux) : (vb = false \/ lb <> 0) -> tokens (rd_data doc) all -> Forall (fun w : gostring => Z.of_nat (length w) <= 65533) all -> rd_err doc = true ->
  exists c, load_step lower mem tl mx mn vb lb w doc b = (set_corpus b c, Err err_read) /\ c_dic c = dict_add dict_new (used_words lower tl all).
Proof. intros Hr Ht Hf He. destruct (load_read_error mem tl mx mn vb lb w doc all Hr Ht Hf He) as (c & E & Ed). exists c. unfold load_step. rewrite E. auto. Qed.
End Any.

(** ** WordVector on an object *)
Definition no_err {A} (r : outcome A) : Prop := forall e : string, r <> Err e.
Lemma no_err_bind {A B} (r : outcome A) (f : A -> outcome B) : no_err r -> (forall a, no_err (f a)) -> no_err (obind r f).
Proof. intros H F. destruct r as [a|e|]; cbn [obind]; [apply F|destruct (H e eq_refl)|discriminate]. Qed.
Lemma no_err_slice m i : no_err (mat_slice m i).
Proof. unfold mat_slice. destruct (slice_ok _ _ _); discriminate. Qed.
Lemma no_err_cell m i j : no_err (cell m i j).
Proof. apply no_err_bind; [apply no_err_slice|]. intros r. destruct (zindex r j); discriminate. Qed.
Lemma no_err_nil m i j : no_err (nil_cell m i j).
Proof. destruct m as [m|]; cbn [nil_cell]; [apply no_err_cell|discriminate]. Qed.
Lemma no_err_loop get : (forall i, no_err (get i)) -> forall n i vec, no_err (vec_loop get n i vec).
Proof.
  intros H. induction n as [|n IH]; intros i vec; cbn [vec_loop]; [discriminate|]. apply no_err_bind; [apply H|]. intros x. destruct (zindex vec i); [apply IH|discriminate].
Qed.
Lemma vec_rows_panics (fn : Z -> list f64 -> outcome (list f64)) : (forall i r, no_err (fn i r)) ->
  forall n i m k, (k < n)%nat -> (forall r, fn (i + Z.of_nat k) r = Panic) -> vec_rows fn n i m = Panic.
Proof.
  intros HN. induction n as [|n IH]; intros i m k Hk H1; [lia|]. cbn [vec_rows]. destruct (mat_slice m i) as [r|x|] eqn:E; [|destruct (no_err_slice m i x E)|reflexivity].
  cbn [obind]. destruct k as [|k].
  - rewrite Z.add_0_r in H1. rewrite H1. reflexivity.
  - destruct (fn i r) as [r'|e|] eqn:F; [|destruct (HN i r e F)|reflexivity]. cbn [obind]. apply IH with (k := k); [lia|].
    intros r0. rewrite <- (H1 r0). f_equal. lia.
Qed.
Lemma vec_matrix_panics V dim get q : (forall i j, no_err (get i j)) -> (q < V)%nat -> (1 <= dim)%nat -> get (Z.of_nat q) 0 = Panic ->
  vec_matrix (Z.of_nat V) (Z.of_nat dim) get = Panic.
Proof.
  intros HN Hq Hd H. unfold vec_matrix. destruct (Z.ltb_spec (Z.of_nat V * Z.of_nat dim) 0); [reflexivity|]. rewrite !Nat2Z.id.
  apply vec_rows_panics with (k := q); auto.
  - intros i r. apply no_err_loop. auto.
  - intros r. rewrite Z.add_0_l. destruct dim as [|d]; [lia|]. cbn [vec_loop]. rewrite H. reflexivity.
Qed.

Lemma cell_out col rows q j : all_len col rows -> (1 <= col)%nat -> (length rows <= q)%nat -> cell (of_rows col rows) (Z.of_nat q) j = Panic.
Proof.
  intros A Hc Hq. unfold cell, mat_slice, start_index. cbn [m_col m_array of_rows].
  assert (L : length (concat rows) = (length rows * col)%nat).
  { clear -A. induction A as [|r rows Hr A IH]; [reflexivity|]. cbn [concat length Nat.mul]. rewrite app_length, IH, Hr. reflexivity. }
  rewrite L. unfold slice_ok. destruct (Z.leb_spec (Z.of_nat q * Z.of_nat col + Z.of_nat col) (Z.of_nat (length rows * col))); [nia|].
  rewrite andb_false_r. reflexivity.
Qed.

Lemma table_firstn V dim rows : all_len dim rows -> (V <= length rows)%nat -> table V dim (at2 rows) = firstn V rows.
Proof.
  intros A L. unfold table. apply nth_ext with (d := []) (d' := []).
  { rewrite map_length, seq_length, firstn_length. lia. }
  intros q Hq. rewrite map_length, seq_length in Hq.
  destruct (table_ok V dim (at2 rows)) as (L1 & A1 & H1). fold (table V dim (at2 rows)).
  assert (E : nth q (firstn V rows) [] = nth q rows []).
  { rewrite <- (firstn_skipn V rows) at 2. rewrite app_nth1; [reflexivity|]. rewrite firstn_length. lia. }
  rewrite E. apply nth_ext with (d := fzero) (d' := fzero).
  { rewrite (all_len_nth dim) by (auto; lia). rewrite (all_len_nth dim) by (auto; lia). reflexivity. }
  intros j Hj. rewrite (all_len_nth dim) in Hj by (auto; lia). rewrite H1 by lia. reflexivity.
Qed.
