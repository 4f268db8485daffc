(** * C112: the progress reports of the option Verbose

    [Line verb noun n last] is the line "<verb> <n> <noun> ..." (Model/Progress.v); elapsed times are not modelled. *)
From Coq Require Import Lia Sorting.Permutation.
From Verif.Lib Require Import Go F64.
From Verif.Spec Require Import Words Tokens Window Filter Rows Saved Readable Runs Progress.
From Verif.Model Require Import Dictionary Encode Cooc Reader Corpus Matrix Word2vec Glove Lexvec Options Train FmtFloat Vector Sched Run Progress.
From Verif.Proofs Require Progress Corpus RunModels RunGlove RunW2v Run Vector RunSetup.
Local Open Scope Z_scope.

(** C112. Verbose changes nothing but the output (LogBatch 0 apart, which panics: C69): [mem_load] and [fs_load] are the
    same functions with the lines left out. For every input, also unreadable ones. *)
Theorem C112_same : forall lower verbose lb c w,
  (let '((c1, _), r) := print_mem_load verbose lb lower c w in (c1, r)) = mem_load lower verbose lb c w /\
  (let '((c1, _), r) := print_fs_load verbose lb lower c w in (c1, r)) = fs_load lower verbose lb c w.
Proof.
  intros lower verbose lb c w. destruct (Progress.mem_load_erase lower verbose lb c w) as (E1 & E2). destruct (Progress.fs_load_erase lower verbose lb c w) as (E3 & E4).
  destruct (print_mem_load verbose lb lower c w) as [[c1 o1] r1], (print_fs_load verbose lb lower c w) as [[c2 o2] r2].
  destruct (mem_load lower verbose lb c w), (fs_load lower verbose lb c w). cbn [fst snd] in *. subst. auto.
Qed.
Print Assumptions C112_same.

(** C112. Load of the in-memory corpus: the words of the text are announced, then the pairs at most Window apart. *)
Theorem C112_load_memory : forall lower verbose lb doc lc maxc minc all w c1, readable verbose lb doc all ->
  mem_load lower verbose lb (corpus_new doc lc maxc minc) w = (c1, Ret tt) ->
  exists out, print_mem_load verbose lb lower (corpus_new doc lc maxc minc) w = ((c1, out), Ret tt) /\
    out = if verbose then announced "read" "words" lb (length all) ++
                          match w with
                          | None => []
                          | Some w => announced "read" "tuples" lb (length (window_pairs (Z.to_nat (w_window w)) all))
                          end
          else [].
Proof.
  intros lower verbose lb doc lc maxc minc all w c1 (Hlb & Ht & He & Hf) HM. eexists.
  split; [exact (Progress.mem_lines lower verbose lb doc lc maxc minc all w c1 Hlb Ht He Hf HM)|].
  unfold Progress.said. destruct verbose; [reflexivity|]. destruct w; reflexivity.
Qed.
Print Assumptions C112_load_memory.

(** C112. Load of the file-backed corpus: the same for the words; the pairs are those it counts (C09), which are not all
    pairs. *)
Theorem C112_load_file : forall lower verbose lb doc lc maxc minc all w c1, readable verbose lb doc all ->
  match w with None => True | Some w => 1 <= w_window w < Z.of_nat (length all) end ->
  fs_load lower verbose lb (corpus_new doc lc maxc minc) w = (c1, Ret tt) ->
  exists out, print_fs_load verbose lb lower (corpus_new doc lc maxc minc) w = ((c1, out), Ret tt) /\
    out = if verbose then announced "read" "words" lb (length all) ++
                          match w with
                          | None => []
                          | Some w => let n := Z.to_nat (w_window w) in
                                      announced "read" "tuples" lb (length (window_pairs_upto (length all - n + 1) n all))
                          end
          else [].
Proof.
  intros lower verbose lb doc lc maxc minc all w c1 (Hlb & Ht & He & Hf) Hw HM. eexists.
  split; [refine (Progress.fs_lines lower verbose lb doc lc maxc minc all w c1 Hlb Ht He Hf _ HM); destruct w; [lia|exact I]|].
  unfold Progress.said. destruct verbose; [|destruct w; reflexivity]. f_equal. destruct w as [w|]; [|reflexivity]. cbv zeta.
  rewrite Corpus.fc_emitted_long by lia. reflexivity.
Qed.
Print Assumptions C112_load_file.

(** C112. makeItems announces as many items as there are cells in the co-occurrence matrix. *)
Theorem C112_items : forall flog fpow xmax alpha d typ smooth len verbose lb em, verbose = false \/ lb <> 0 ->
  print_glv_items verbose lb flog fpow xmax alpha em 0 [] =
    (if verbose then announced "build" "items" lb (length em) else [], make_items flog fpow xmax alpha verbose lb em) /\
  exists out, print_lxv_items verbose lb flog fpow d typ smooth (flog (fpow (f_of_Z len) smooth)) em [] 0 [] =
                (out, lex_make_items flog fpow d len typ smooth verbose lb em) /\
    ((exists items, lex_make_items flog fpow d len typ smooth verbose lb em = Ret items) ->
     out = if verbose then announced "build" "items" lb (length em) else []).
Proof.
  intros flog fpow xmax alpha d typ smooth len verbose lb em Hlb. split.
  - pose proof (Progress.glv_items_lines flog fpow xmax alpha verbose lb Hlb em 0%nat []) as H. rewrite Progress.marks_0 in H by auto. exact H.
  - destruct (Progress.lxv_items_lines flog fpow d typ smooth (flog (fpow (f_of_Z len) smooth)) verbose lb Hlb em [] 0%nat []) as (out & E & H).
    rewrite Progress.marks_0 in E by auto. exists out. split; [exact E|exact H].
Qed.
Print Assumptions C112_items.

(** C112. Save announces the ids that are multiples of LogBatch, from 0, and the number of words; the file is the same. *)
Theorem C112_save : forall W (wr : writer W) cut d m verbose lb st st', verbose = false \/ lb <> 0 ->
  save wr cut d m verbose lb st = (st', Ret tt) ->
  print_save verbose lb wr cut d m st = ((st', if verbose then save_lines lb (dict_len d) else []), Ret tt).
Proof. intros W wr cut d m verbose lb st st'. apply Progress.save_lines_lemma. Qed.
Print Assumptions C112_save.

(** C112. Training, for all schedules: per iteration the words that survive the filters, also those that the subsampler
    skips. Train may return before the last line of the last iteration. *)
Theorem C112_word2vec : forall exp lower rand o doc all w0 x v0, w2v_usable lower o doc all ->
  w2v_setup lower rand o doc = Ret w0 -> w2v_source lower o w0 = Ret x -> 1 <= w2v_Iter o ->
  let iter := Z.to_nat (w2v_Iter o) in
  told (w2v_Verbose o) "words" (w2v_LogBatch o)
       (length (kept_words (w2v_MaxCount o) (w2v_MinCount o) (used_words lower (w2v_ToLower o) all))) iter
       (fun l out => exists v, talks (w2v_Verbose o) (w2v_LogBatch o) (w2v_cfg o)
          (w2v_effects (Sigmoid.sigmoid (Sigmoid.sig_table exp)) rand o w0) iter (fun _ => x) "words" v0 l v out).
Proof.
  intros exp lower rand o doc all w0 x v0 HU HS Hx Hi iter.
  pose proof (RunSetup.w2v_setup_corpus _ _ _ _ _ HS) as HC.
  assert (HB : if w2v_DocInMemory o then 1 <= w2v_Goroutines o /\ Z.of_nat (length all) + w2v_Goroutines o <= 2 ^ 53 else 1 <= w2v_BatchSize o).
  { pose proof (wu_batch _ _ _ _ HU). pose proof (wu_g _ _ _ _ HU). destruct (w2v_DocInMemory o); auto. }
  destruct (RunSetup.source_lt _ _ _ _ _ _ _ _ _ all _ (wu_text _ _ _ _ HU) HC _ _ HB x Hx) as (S1 & S2 & _).
  apply Progress.told_lemma; [exact (proj1 (wu_text _ _ _ _ HU))|exact S1|lia|].
  rewrite S2. unfold RunSetup.kept_doc. rewrite map_length. reflexivity.
Qed.
Print Assumptions C112_word2vec.

Theorem C112_lexvec : forall lower rand flog fpow order o doc all l0 x v0, lxv_usable lower o doc all ->
  lxv_setup lower rand flog fpow order o doc = Ret l0 -> lxv_source lower o l0 = Ret x -> 1 <= lex_Iter o ->
  let iter := Z.to_nat (lex_Iter o) in
  told (lex_Verbose o) "words" (lex_LogBatch o)
       (length (kept_words (lex_MaxCount o) (lex_MinCount o) (used_words lower (lex_ToLower o) all))) iter
       (fun l out => exists v, talks (lex_Verbose o) (lex_LogBatch o) (lxv_cfg o) (lxv_effects rand o l0) iter (fun _ => x) "words" v0 l v out).
Proof.
  intros lower rand flog fpow order o doc all l0 x v0 HU HS Hx Hi iter.
  pose proof (RunSetup.lxv_setup_corpus _ _ _ _ _ _ _ _ HS) as HC.
  assert (HB : if lex_DocInMemory o then 1 <= lex_Goroutines o /\ Z.of_nat (length all) + lex_Goroutines o <= 2 ^ 53 else 1 <= lex_BatchSize o).
  { pose proof (lu_batch _ _ _ _ HU). pose proof (lu_g _ _ _ _ HU). destruct (lex_DocInMemory o); auto. }
  destruct (RunSetup.source_lt _ _ _ _ _ _ _ _ _ all _ (lu_text _ _ _ _ HU) HC _ _ HB x Hx) as (S1 & S2 & _).
  apply Progress.told_lemma; [exact (lu_log _ _ _ _ HU)|exact S1|lia|].
  rewrite S2. unfold RunSetup.kept_doc. rewrite map_length. reflexivity.
Qed.
Print Assumptions C112_lexvec.

(** GloVe announces the items, i.e. the cells of the co-occurrence matrix. *)
Theorem C112_glove : forall lower rand flog fpow order o doc all g0 x v0, (forall m, Permutation (order m) m) -> glv_usable lower o doc all ->
  glv_setup lower rand flog fpow order o doc = Ret g0 -> glv_source o g0 = Ret x -> 1 <= glv_Iter o ->
  let iter := Z.to_nat (glv_Iter o) in
  told (glv_Verbose o) "items" (glv_LogBatch o) (length (gl_items g0)) iter
       (fun l out => exists v, talks (glv_Verbose o) (glv_LogBatch o) (glv_cfg o) (glv_effects o (Z.of_nat (dict_len (gl_dic g0)))) iter (fun _ => x) "items" v0 l v out).
Proof.
  intros lower rand flog fpow order o doc all g0 x v0 HP HU HS Hx Hi iter.
  destruct (RunGlove.glv_chunks lower rand flog fpow order o doc all HU HP g0 HS x Hx) as (S1 & S2 & _).
  apply Progress.told_lemma; [exact (proj1 (gu_text _ _ _ _ HU))|exact S1|lia|]. rewrite S2. reflexivity.
Qed.
Print Assumptions C112_glove.

(** Seven words with LogBatch 3 (and -3): "read 3 words", "read 6 words", "read 7 words". Saving five words: 0, 3, 5. *)
Definition small_doc : reader := {| rd_data := bs "a b a c d a e"; rd_pos := 0; rd_err := false |}.
Example C112_case :
  snd (fst (print_mem_load true 3 (fun w => w) (corpus_new small_doc false (-1) 0) None)) =
    [Line "read" "words" 3 false; Line "read" "words" 6 false; Line "read" "words" 7 true] /\
  snd (fst (print_fs_load true (-3) (fun w => w) (corpus_new small_doc false (-1) 0) None)) =
    [Line "read" "words" 3 false; Line "read" "words" 6 false; Line "read" "words" 7 true] /\
  snd (fst (print_mem_load false 3 (fun w => w) (corpus_new small_doc false (-1) 0) None)) = [] /\
  save_lines 3 5 = [Line "saved" "words" 0 false; Line "saved" "words" 3 false; Line "saved" "words" 5 true] /\
  map l_count (announced "trained" "words" 4 11) = [4; 8; 11].
Proof. vm_compute. repeat split. Qed.

(** One word, one goroutine: Train can return with nothing printed. *)
Definition quiet_effects : effects nat unit := Effects (fun _ v => Ret (v, true)) (fun _ _ v r => r = Ret v) (fun _ v => Ret v).
Example C112_silent_return : exists l v, returned 1 l /\
  talks true 1 (Cfg 1 false false) quiet_effects 1 (fun _ => Mem [[7%nat]]) "words" tt l v [].
Proof.
  set (c := Cfg 1 false false).
  set (talk := talks true 1 c quiet_effects 1 (fun _ => Mem [[7%nat]]) "words" tt).
  assert (GO : forall s s' v', talk [s] tt [] -> vstep c quiet_effects s tt (Ret (s', v')) ->
            observer_says true 1 "words" (obs s) (obs s') = [] -> talk [s'] v' []).
  { intros s s' v' HT HV HO. replace (@nil (nat * line)) with (@nil (nat * line) ++ step_says true 1 "words" [s] [s']) by (cbn; rewrite HO; reflexivity).
    refine (talks_S true 1 c quiet_effects 1 _ "words" tt [s] tt [] [s'] v' HT _).
    exact (vr_inner c quiet_effects 1 _ [] s [] tt (Ret (s', v')) HV). }
  pose (S0 := init c (Mem [[7%nat]]) : st nat).
  pose (S1 := St (Mem []) MLoop [Worker [7%nat] WNew] (ORecv 0) 0 1 1 false false [] : st nat).
  pose (S2 := St (Mem []) MWait [Worker [7%nat] WNew] (ORecv 0) 0 1 1 false false [] : st nat).
  pose (S3 := St (Mem []) MWait [Worker [7%nat] (WRun [7%nat])] (ORecv 0) 1 1 1 false false [] : st nat).
  pose (S4 := St (Mem []) MWait [Worker [7%nat] (WSend [])] (ORecv 0) 1 1 1 false false [(0%nat, 7%nat)] : st nat).
  pose (S5 := St (Mem []) MWait [Worker [7%nat] (WRun [])] (OBusy 1) 1 1 1 false false [(0%nat, 7%nat)] : st nat).
  pose (S6 := St (Mem []) MWait [Worker [7%nat] WRel] (OBusy 1) 1 1 0 false false [(0%nat, 7%nat)] : st nat).
  pose (S7 := St (Mem []) MDone [Worker [7%nat] WRel] (OBusy 1) 1 1 0 true false [(0%nat, 7%nat)] : st nat).
  assert (T0 : talk [S0] tt []) by constructor.
  assert (T1 : talk [S1] tt []).
  { refine (GO S0 S1 tt T0 (v_quiet c quiet_effects S0 S1 tt (s_spawn_mem c S0 [7%nat] [] eq_refl eq_refl eq_refl) _) eq_refl). split; [reflexivity|]. split; [cbn; lia|]. intros n Hn. first [discriminate Hn|exact Hn]. }
  assert (T2 : talk [S2] tt []).
  { refine (GO S1 S2 tt T1 (v_quiet c quiet_effects S1 S2 tt (s_mem_end c S1 eq_refl eq_refl eq_refl) _) eq_refl). split; [reflexivity|]. split; [cbn; lia|]. intros n Hn. first [discriminate Hn|exact Hn]. }
  assert (T3 : talk [S3] tt []).
  { refine (GO S2 S3 tt T2 (v_quiet c quiet_effects S2 S3 tt (s_acquire c S2 0%nat [7%nat] eq_refl eq_refl (le_n 1)) _) eq_refl). split; [reflexivity|]. split; [cbn; lia|]. intros n Hn. first [discriminate Hn|exact Hn]. }
  assert (T4 : talk [S4] tt []).
  { refine (GO S3 S4 tt T3 _ eq_refl). exact (v_train c quiet_effects S3 0%nat [7%nat] 7%nat [] tt tt (Ret tt) eq_refl eq_refl eq_refl eq_refl eq_refl). }
  assert (T5 : talk [S5] tt []).
  { refine (GO S4 S5 tt T4 (v_quiet c quiet_effects S4 S5 tt (s_tick c S4 0%nat [] 0%nat eq_refl (ex_intro _ [7%nat] eq_refl) eq_refl eq_refl) _) eq_refl). split; [reflexivity|]. split; [cbn; lia|]. intros n Hn. first [discriminate Hn|exact Hn]. }
  assert (T6 : talk [S6] tt []).
  { refine (GO S5 S6 tt T5 (v_quiet c quiet_effects S5 S6 tt (s_done c S5 0%nat eq_refl (ex_intro _ [7%nat] eq_refl) (le_n 1)) _) eq_refl). split; [reflexivity|]. split; [cbn; lia|]. intros n Hn. first [discriminate Hn|exact Hn]. }
  assert (T7 : talk [S7] tt []).
  { refine (GO S6 S7 tt T6 (v_quiet c quiet_effects S6 S7 tt (s_wait c S6 eq_refl eq_refl eq_refl) _) eq_refl). split; [reflexivity|]. split; [cbn; lia|]. intros n Hn. first [discriminate Hn|exact Hn]. }
  exists [S7], tt. split; [|exact T7]. split; [reflexivity|]. right. exists [], S7. split; reflexivity.
Qed.
