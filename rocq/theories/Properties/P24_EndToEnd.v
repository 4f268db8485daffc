(** * C68: what was trained and saved can be loaded and searched

    [lxv_trained .. o doc l] (Model/Run.v): some schedule of Train on the text [doc] with the options [o]
    returns nil and leaves the model [l]. [pf] is strconv.ParseFloat, [cut] the buffering. *)
From Coq Require Import Lia Sorting.Permutation.
From Verif.Lib Require Import Go F64.
From Verif.Spec Require Sequential OneGoroutine.
From Verif.Spec Require Import Words Tokens Lines Rows Saved Decimal Readable Runs.
From Verif.Model Require Import Dictionary Reader Corpus Matrix Word2vec Glove Lexvec Options Train Run Embedding FmtFloat ParseFloat Vector Search.
From Verif.Proofs Require TrainOne TrainProps Dictionary Embedding Vector RunModels RunGlove RunW2v EndToEnd ParseFloat.
From Verif.Properties Require P23_Runs.
Local Open Scope Z_scope.

(** Lower-casing, if used, makes no word empty and adds no white space. *)
Definition keeps_words (lower : gostring -> gostring) (to_lower : bool) : Prop :=
  to_lower = true -> forall w, w <> [] -> ~ has_space w -> lower w <> [] /\ ~ has_space (lower w).

(** Saving succeeds, and if no line of the file exceeds the limit of bufio.Scanner then loading
    it gives the words of the text, New accepts them and SearchInternal finds every word. *)
Definition queryable (pf : gostring -> option f64) (cut : gostring -> list (list byte)) (words : list gostring) (d : dict)
  (vectors : string -> outcome matrix) (verbose : bool) (log_batch : Z) : Prop :=
  forall typ, exists file, model_save good_writer cut d vectors verbose log_batch typ [] = (file, Ret tt) /\
    forall ls, lines file ls -> Forall (fun l => Z.of_nat (length l) <= 65535) ls ->
    exists embs, load pf (file_of file) = Ret embs /\ map e_word embs = distinct words /\ searcher_new embs = Ret embs /\
      forall w k, In w words -> 1 <= k -> exists res, search_internal embs w k = Ret res.

Lemma used_ok lower tl verbose lb doc all : readable verbose lb doc all -> keeps_words lower tl ->
  Forall (fun w => w <> [] /\ ~ has_space w) (used_words lower tl all).
Proof.
  intros (_ & HT & _) HK. pose proof (Embedding.tokens_words _ _ HT) as HW. unfold used_words. destruct tl; [|exact HW].
  apply Forall_forall. intros w Hw. apply in_map_iff in Hw. destruct Hw as (w' & <- & Hw'). rewrite Forall_forall in HW.
  destruct (HW w' Hw'). apply HK; auto.
Qed.

Theorem C68_lexvec : forall pf cut lower rand flog fpow order next lr o doc all l,
  reads_decimals pf -> (forall t, concat (cut t) = t) -> keeps_words lower (lex_ToLower o) -> (forall m, Permutation (order m) m) ->
  lxv_usable lower o doc all -> 1 <= lex_Dim o -> lxv_trained lower rand flog fpow order next lr o doc l ->
  queryable pf cut (used_words lower (lex_ToLower o) all) (c_dic (lx_corpus l)) (lxv_word_vector o l) (lex_Verbose o) (lex_LogBatch o).
Proof.
  intros pf cut lower rand flog fpow order next lr o doc all l HF Hc HK HP HU Hd (l0 & x & v & HS & Hx & (ls & HR & _) & ->) typ.
  destruct (RunModels.lxv_ready_l0 lower rand flog fpow order o doc all HU HP l0 HS) as (_ & Ed & _). cbn [lx_corpus]. rewrite Ed.
  destruct (proj1 (RunModels.lxv_run lower rand flog fpow order o doc all HU HP l0 HS x Hx False _ _ ltac:(tauto)
    (conj (RunModels.lx_start_shape lower rand flog fpow order o doc all HU HP l0 HS next lr) (False_ind _)) ls v HR)) as ((rows & Em & A & L) & _).
  pose proof (Vector.lxv_word_vector_spec o (Lxv (lx_corpus l0) (lv_m v) (lx_samples l0) (lx_items l0)) typ _ (Z.to_nat (lex_Dim o)) rows
    ltac:(cbn [lx_corpus]; rewrite Ed; apply TrainProps.dict_len_distinct) ltac:(lia) Em A L) as HV.
  refine (EndToEnd.file_query pf cut _ _ _ _ _ _ typ HF Hc _ _ _ _ _ HV).
  - exact (lu_log _ _ _ _ HU).
  - lia.
  - exact (used_ok _ _ _ _ _ _ (lu_text _ _ _ _ HU) HK).
  - apply Vector.table_ok.
  - apply Vector.table_ok.
Qed.
Print Assumptions C68_lexvec.

Theorem C68_glove : forall pf cut lower rand flog fpow order o doc all g,
  reads_decimals pf -> (forall t, concat (cut t) = t) -> keeps_words lower (glv_ToLower o) -> (forall m, Permutation (order m) m) ->
  glv_usable lower o doc all -> 1 <= glv_Dim o -> glv_trained lower rand flog fpow order o doc g ->
  queryable pf cut (used_words lower (glv_ToLower o) all) (gl_dic g) (glv_word_vector o g) (glv_Verbose o) (glv_LogBatch o).
Proof.
  intros pf cut lower rand flog fpow order o doc all g HF Hc HK HP HU Hd (g0 & x & m & sol & HS & Hx & (ls & HR & _) & ->) typ.
  destruct (RunGlove.glv_ready_g0 lower rand flog fpow order o doc all HU HP g0 HS) as (_ & Ed & _). cbn [gl_dic]. rewrite Ed.
  destruct (proj1 (RunGlove.glv_run lower rand flog fpow order o doc all HU HP g0 HS x Hx _ ls _ HR)) as (rows & Em & A & L & _). cbn [fst] in Em.
  pose proof (Vector.glv_word_vector_spec o (Glv (gl_dic g0) m sol (gl_items g0)) typ _ (Z.to_nat (glv_Dim o)) rows
    ltac:(cbn [gl_dic]; rewrite Ed; apply TrainProps.dict_len_distinct) ltac:(lia) Em A L) as HV.
  rewrite Ed in HV.
  refine (EndToEnd.file_query pf cut _ _ _ _ _ _ typ HF Hc _ _ _ _ _ HV).
  - exact (proj1 (gu_text _ _ _ _ HU)).
  - lia.
  - exact (used_ok _ _ _ _ _ _ (gu_text _ _ _ _ HU) HK).
  - apply Vector.table_ok.
  - apply Vector.table_ok.
Qed.
Print Assumptions C68_glove.

Theorem C68_word2vec : forall pf cut exp lower rand next lr o doc all w,
  reads_decimals pf -> (forall t, concat (cut t) = t) -> keeps_words lower (w2v_ToLower o) ->
  w2v_usable lower o doc all -> 1 <= w2v_Dim o -> w2v_trained exp lower rand next lr o doc w ->
  queryable pf cut (used_words lower (w2v_ToLower o) all) (c_dic (wv_corpus w)) (w2v_word_vector o w) (w2v_Verbose o) (w2v_LogBatch o).
Proof.
  intros pf cut exp lower rand next lr o doc all w HF Hc HK HU Hd (w0 & x & v & HS & Hx & (ls & HR & _) & ->) typ.
  destruct (RunW2v.w2v_ready_w0 exp lower rand o doc all HU w0 HS) as (Ed & _). cbn [wv_corpus]. rewrite Ed.
  destruct (proj1 (RunW2v.w2v_run exp lower rand o doc all HU w0 HS x Hx False _ _ ltac:(tauto)
    (conj (RunW2v.w2_start_shape exp lower rand o doc all HU w0 HS next lr) (False_ind _)) ls v HR)) as ((rows & Em & A & L & Hopt) & _).
  pose proof (TrainOne.reach_ok _ [used_words lower (w2v_ToLower o) all] _ _ ltac:(cbn [fold_left]; rewrite TrainProps.dict_len_distinct; exact (wu_words _ _ _ _ HU)) Hopt) as HO.
  cbn [fold_left] in HO. rewrite TrainProps.dict_len_distinct in HO.
  pose proof (Vector.w2v_word_vector_spec o (W2v (wv_corpus w0) (wv_m v) (wv_samples w0) (wv_mod w0) (wv_o v)) typ _ (Z.to_nat (w2v_Dim o)) rows
    ltac:(cbn [wv_corpus]; rewrite Ed; apply TrainProps.dict_len_distinct) ltac:(lia) Em A L) as HV. cbn [wv_opt] in HV.
  destruct (wv_o v) as [ctx k|h set depth].
  - destruct HO as (crows & Ec & Ac & Lc). specialize (HV crows Ec Ac Lc).
    refine (EndToEnd.file_query pf cut _ _ _ _ _ _ typ HF Hc _ _ _ _ _ HV).
    + exact (proj1 (wu_text _ _ _ _ HU)).
    + lia.
    + exact (used_ok _ _ _ _ _ _ (wu_text _ _ _ _ HU) HK).
    + apply Vector.table_ok.
    + apply Vector.table_ok.
  - refine (EndToEnd.file_query pf cut _ _ _ _ _ _ typ HF Hc _ _ _ _ _ HV).
    + exact (proj1 (wu_text _ _ _ _ HU)).
    + lia.
    + exact (used_ok _ _ _ _ _ _ (wu_text _ _ _ _ HU) HK).
    + apply Vector.table_ok.
    + apply Vector.table_ok.
Qed.
Print Assumptions C68_word2vec.

(** The text a b a with two goroutines: some run of each of GloVe and LexVec does return, so the
    theorems above apply; [parse_float] reads decimals. *)
Example C68_case : let id := fun w : gostring => w in let o := lex_new 2 [L_Dim 2; L_MinCount 0] in
  reads_decimals parse_float /\ keeps_words id (lex_ToLower o) /\ lxv_usable id o P23_Runs.aba P23_Runs.aba_words /\
  exists l, lxv_trained id (fun _ => fzero) (fun x => x) (fun x _ => x) (fun m => m) 1 (lex_Initlr o) o P23_Runs.aba l.
Proof.
  intros id o. split; [exact ParseFloat.parse_float_reads|]. split; [intros H; discriminate|].
  assert (HU : lxv_usable id o P23_Runs.aba P23_Runs.aba_words).
  { constructor; cbn -[Z.mul Z.pow]; auto using P23_Runs.aba_readable; try lia; try tauto; vm_compute; discriminate. }
  split; [exact HU|].
  destruct (P23_Runs.C78_lexvec id (fun _ => fzero) (fun x => x) (fun x _ => x) (fun m => m) o _ _ (fun m => Permutation_refl m) HU) as (l0 & x & _ & _ & H).
  apply (H 1 (lex_Initlr o)).
Qed.

(** A whole run of LexVec by computation: one goroutine, in memory (so that C80 says it is the
    only result), saved, loaded and searched. *)
Example C68_run : let id := fun w : gostring => w in
  let o := lex_new 1 [L_Dim 2; L_MinCount 0; L_DocInMemory; L_Iter 1; L_Relation "co"] in
  let rand := fun k : nat => if Nat.even k then fzero else f_dec 5 1 in
  match lxv_setup id rand (fun x => x) (fun x _ => x) (fun m => m) o P23_Runs.aba with
  | Ret l0 => match Sequential.passes (lxv_trial rand (lx_samples l0)) (OneGoroutine.lxv_step o (lx_items l0) (Z.of_nat (dict_len (c_dic (lx_corpus l0))))) 1
                [0; 1; 0]%nat (lxv_start 1 (lex_Initlr o) l0) with
              | Ret v => let l := Lxv (lx_corpus l0) (lv_m v) (lx_samples l0) (lx_items l0) in
                  match model_save good_writer (fun t => [t]) (c_dic (lx_corpus l)) (lxv_word_vector o l) false 0 "single" [] with
                  | (file, Ret tt) => match load parse_float (file_of file) with
                    | Ret embs => match search_internal embs (bs "a") 2 with
                                  | Ret ns => map (fun n => string_of_list_byte (n_word n)) ns
                                  | _ => ["?"%string] end
                    | _ => ["?"%string] end
                  | _ => ["?"%string] end
              | _ => ["?"%string] end
  | _ => ["?"%string] end = ["b"%string].
Proof. vm_compute. reflexivity. Qed.
