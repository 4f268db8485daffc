(** * Training depends on the spelling of the words only through which words are equal *)
From Coq Require Import Lia.
From Verif.Lib Require Import Go F64 ListFacts Tac.
From Verif.Spec Require Import Words Tokens Filter Readable Runs Rename.
From Verif.Model Require Import Dictionary Encode Reader Cooc Corpus ModelUtil Matrix Subsample Huffman Sigmoid Word2vec Glove Lexvec LearningRate Options Train Sched Run.
From Verif.Proofs Require Import Dictionary Reader Corpus.
From Verif.Proofs Require RunSetup.

Section Map.
Variables (f : gostring -> gostring) (J : gostring -> Prop).
Hypothesis inj : forall v w, J v -> J w -> f v = f w -> v = w.
Let rn (m : list (gostring * nat)) := map (fun p => (f (fst p), snd p)) m.

Lemma mget_rn w m : J w -> Forall (fun p => J (fst p)) m -> mget gostring_eq_dec (f w) (rn m) = mget gostring_eq_dec w m.
Proof.
  intros Hw. induction 1 as [|[k v] m Hk Hm IH]; [reflexivity|]. cbn [rn map fst snd mget]. cbn [fst] in Hk.
  destruct (gostring_eq_dec w k) as [->|N].
  - destruct (gostring_eq_dec (f k) (f k)); [reflexivity|congruence].
  - destruct (gostring_eq_dec (f w) (f k)) as [E|_]; [elim N; auto|]. exact IH.
Qed.

Lemma mset_rn w i m : J w -> Forall (fun p => J (fst p)) m -> mset gostring_eq_dec (f w) i (rn m) = rn (mset gostring_eq_dec w i m).
Proof.
  intros Hw. induction 1 as [|[k v] m Hk Hm IH]; [reflexivity|]. cbn [rn map fst snd mset]. cbn [fst] in Hk.
  destruct (gostring_eq_dec w k) as [->|N].
  - destruct (gostring_eq_dec (f k) (f k)); [reflexivity|congruence].
  - destruct (gostring_eq_dec (f w) (f k)) as [E|_]; [elim N; auto|]. cbn [map fst snd]. f_equal. exact IH.
Qed.

Lemma mset_J w i (m : list (gostring * nat)) : J w -> Forall (fun p => J (fst p)) m -> Forall (fun p => J (fst p)) (mset gostring_eq_dec w i m).
Proof.
  intros Hw. induction 1 as [|[k v] m Hk Hm IH]; [repeat constructor; auto|]. cbn [mset].
  destruct (gostring_eq_dec w k); constructor; auto.
Qed.

Definition in_J (d : dict) : Prop := Forall (fun p => J (fst p)) (word2id d).

Lemma dict_add1_rn d w : J w -> in_J d -> dict_add1 (respelled_dict f d) (f w) = respelled_dict f (dict_add1 d w) /\ in_J (dict_add1 d w).
Proof.
  intros Hw Hd. unfold dict_add1. cbn [respelled_dict word2id id2word cfs maxid]. fold (rn (word2id d)). rewrite (mget_rn w _ Hw Hd).
  destruct (mget gostring_eq_dec w (word2id d)) as [i|].
  - split; [reflexivity|exact Hd].
  - split; [|apply mset_J; auto]. unfold respelled_dict. cbn [word2id id2word cfs maxid]. rewrite (mset_rn w _ _ Hw Hd), map_app. reflexivity.
Qed.

Lemma dict_add_rn ws : Forall J ws -> forall d, in_J d ->
  dict_add (respelled_dict f d) (map f ws) = respelled_dict f (dict_add d ws) /\ in_J (dict_add d ws).
Proof.
  induction 1 as [|w ws Hw Hws IH]; intros d Hd; [split; [reflexivity|exact Hd]|].
  destruct (dict_add1_rn d w Hw Hd) as (E & Hd'). unfold dict_add in *. cbn [map fold_left]. rewrite E. apply IH. exact Hd'.
Qed.

Lemma dict_of_rn ws : Forall J ws -> dict_add dict_new (map f ws) = respelled_dict f (dict_add dict_new ws) /\ in_J (dict_add dict_new ws).
Proof. intros H. apply (dict_add_rn ws H dict_new). constructor. Qed.

Lemma dict_id_rn d w : J w -> in_J d -> dict_id (respelled_dict f d) (f w) = dict_id d w.
Proof. intros Hw Hd. unfold dict_id. cbn [respelled_dict word2id]. fold (rn (word2id d)). now rewrite (mget_rn w _ Hw Hd). Qed.

(** Forward context. *)
Section Forward.
Context {St : Type}.
Variables (fn fn' : callback St (gostring * gostring)).
Hypothesis HF : forall s a b, J a -> J b -> fn' s (f a, f b) = fn s (a, b).
Hypothesis f0 : f [] = [].
Hypothesis J0 : J [].

Lemma post_fn_rn s a ws : J a -> Forall J ws -> post_fn fn' s (f a) (map f ws) = post_fn fn s a ws.
Proof.
  intros Ha Hw. revert s. induction Hw as [|w ws H1 H2 IH]; intros s; [reflexivity|]. unfold post_fn in *. cbn [map for_each].
  rewrite HF by auto. destruct (fn s (a, w)) as [s' [u|e|]]; auto.
Qed.

Lemma fill_rn ws : forall toks, fill (map f ws) (map f toks) = (map f (fst (fill ws toks)), map f (snd (fill ws toks))).
Proof.
  induction ws as [|w ws IH]; intros [|t toks]; try reflexivity. cbn [map fill]. rewrite IH. destruct (fill ws toks); reflexivity.
Qed.
Lemma fill_J ws : Forall J ws -> forall toks, Forall J toks -> Forall J (fst (fill ws toks)) /\ Forall J (snd (fill ws toks)).
Proof.
  induction 1 as [|w ws H1 H2 IH]; intros [|t toks] Ht; cbn [fill fst snd]; auto. inversion Ht; subst.
  destruct (IH toks) as (A & B); auto. destruct (fill ws toks); cbn [fst snd] in *. auto.
Qed.
Lemma blank_rn a : J a -> gseqb (f a) [] = gseqb a [].
Proof.
  intros Ha. destruct (gseqb_spec a []) as [->|N]; [rewrite f0; apply gseqb_refl|]. destruct (gseqb_spec (f a) []) as [E|_]; [|reflexivity].
  elim N. apply inj; auto. congruence.
Qed.

Lemma fc_loop_rn fuel : forall s a ws toks, J a -> Forall J ws -> Forall J toks ->
  fc_loop fuel fn' s (f a) (map f ws) (map f toks) =
  (let '(s', o) := fc_loop fuel fn s a ws toks in (s', obind o (fun '(a', ws') => Ret (f a', map f ws')))) /\
  forall s' a' ws', fc_loop fuel fn s a ws toks = (s', Ret (a', ws')) -> J a' /\ Forall J ws'.
Proof.
  induction fuel as [|fuel IH]; intros s a ws toks Ha Hw Ht.
  - cbn [fc_loop obind]. split; [reflexivity|]. intros s' a' ws' E. assert (a = a' /\ ws = ws') as (<- & <-) by (split; congruence). auto.
  - cbn [fc_loop]. rewrite (blank_rn a Ha). destruct (gseqb a []).
    + destruct toks as [|t toks]; cbn [map].
      * cbn [obind]. split; [reflexivity|]. intros s' a' ws' E. assert (a = a' /\ ws = ws') as (<- & <-) by (split; congruence). auto.
      * inversion Ht; subst. rewrite fill_rn. destruct (fill_J ws Hw toks ltac:(auto)) as (K1 & K2). destruct (fill ws toks) as [ws1 rest]. cbn [fst snd] in *.
        rewrite (post_fn_rn s t ws1) by auto. destruct (post_fn fn s t ws1) as [s1 [u|e|]].
        -- apply IH; auto.
        -- split; [reflexivity|discriminate].
        -- split; [reflexivity|discriminate].
    + destruct ws as [|w0 ws]; cbn [map]; [split; [reflexivity|discriminate]|]. inversion Hw; subst.
      destruct toks as [|t toks]; cbn [map].
      * cbn [obind]. split; [reflexivity|]. intros s' a' ws' E. assert (w0 = a' /\ ws = ws') as (<- & <-) by (split; congruence). auto.
      * inversion Ht; subst. change [f t] with (map f [t]). rewrite <- map_app.
        assert (Hw1 : Forall J (ws ++ [t])) by (apply Forall_app; auto).
        rewrite (post_fn_rn s w0 _) by auto. destruct (post_fn fn s w0 (ws ++ [t])) as [s1 [u|e|]].
        -- apply IH; auto.
        -- split; [reflexivity|discriminate].
        -- split; [reflexivity|discriminate].
Qed.

Lemma forward_rn r r' n s all : tokens (rd_data r) all -> rd_err r = false -> fits all ->
  tokens (rd_data r') (map f all) -> rd_err r' = false -> fits (map f all) -> Forall J all ->
  read_word_with_forward_context r' n fn' s = read_word_with_forward_context r n fn s.
Proof.
  intros T1 E1 F1 T2 E2 F2 HJ. unfold read_word_with_forward_context. destruct (n <? 0)%Z; [reflexivity|].
  rewrite (scanner_fits r all T1 F1), (scanner_fits r' (map f all) T2 F2), E1, E2, map_length.
  assert (K : Forall J (repeat [] (Z.to_nat n))) by (apply Forall_forall; intros w Hw; apply repeat_spec in Hw; subst; exact J0).
  pose proof (fc_loop_rn (length all + 2) s [] (repeat [] (Z.to_nat n)) all J0 K HJ) as (E & P).
  rewrite f0, map_repeat, f0 in E. rewrite E. clear E.
  destruct (fc_loop (length all + 2) fn s [] _ all) as [s' [[a ws]|e|]]; cbn [obind]; [|reflexivity|reflexivity].
  destruct (P _ _ _ eq_refl) as (P1 & P2). rewrite (post_fn_rn s' a ws) by auto. reflexivity.
Qed.
End Forward.
End Map.

(** What is computed from ids and frequencies alone. *)
Lemma freq_rn f d i : dict_id_freq (respelled_dict f d) i = dict_id_freq d i.
Proof. reflexivity. Qed.
Lemma filters_rn f mx mn d i : filters_any (corpus_filters mx mn) false i (respelled_dict f d) = filters_any (corpus_filters mx mn) false i d.
Proof. reflexivity. Qed.

Lemma indexed_rn f mx mn d idoc : forall res, indexed_doc_loop (corpus_filters mx mn) (respelled_dict f d) idoc res = indexed_doc_loop (corpus_filters mx mn) d idoc res.
Proof.
  induction idoc as [|i l IH]; intros res; [reflexivity|]. cbn [indexed_doc_loop]. rewrite filters_rn.
  destruct (filters_any _ false i d) as [b|e|]; cbn [obind]; [apply IH|reflexivity|reflexivity].
Qed.
Lemma samples_rn f d t n : forall i, sample_loop (respelled_dict f d) t n i = sample_loop d t n i.
Proof.
  induction n as [|n IH]; intros i; [reflexivity|]. cbn [sample_loop]. rewrite freq_rn.
  destruct (dict_id_freq d _) as [q|e|]; cbn [obind]; [now rewrite IH|reflexivity|reflexivity].
Qed.
Lemma subsample_rn f d t : subsample_new (respelled_dict f d) t = subsample_new d t.
Proof. apply samples_rn. Qed.
Lemma id_freqs_rn f d l : id_freqs (respelled_dict f d) l = id_freqs d l.
Proof.
  induction l as [|i l IH]; [reflexivity|]. cbn [id_freqs]. rewrite freq_rn.
  destruct (dict_id_freq d _) as [q|e|]; cbn [obind]; [now rewrite IH|reflexivity|reflexivity].
Qed.
Lemma huffman_rn f d dim : huffman_tree (respelled_dict f d) dim = huffman_tree d dim.
Proof. unfold huffman_tree. change (maxid (respelled_dict f d)) with (maxid d). now rewrite id_freqs_rn. Qed.
Lemma relation_rn flog fpow f d typ s a b co t : calculate_relation flog fpow (respelled_dict f d) typ s a b co t = calculate_relation flog fpow d typ s a b co t.
Proof. unfold calculate_relation. rewrite !freq_rn. reflexivity. Qed.
Lemma items_rn flog fpow f d typ s t v lb em : forall res,
  make_items_loop flog fpow (respelled_dict f d) typ s t v lb em res = make_items_loop flog fpow d typ s t v lb em res.
Proof.
  induction em as [|[k x] em IH]; intros res; [reflexivity|]. cbn [make_items_loop]. destruct (decode_bigram k) as [a b]. rewrite relation_rn.
  destruct (calculate_relation _ _ _ _ _ _ _ _ _) as [y|e|]; cbn [obind]; [|reflexivity|reflexivity]. cbv zeta. now rewrite IH.
Qed.
Lemma make_items_rn flog fpow f d len typ s v lb em : lex_make_items flog fpow (respelled_dict f d) len typ s v lb em = lex_make_items flog fpow d len typ s v lb em.
Proof. apply items_rn. Qed.

Lemma F2_impl {A B} (P Q : A -> B -> Prop) l l' : (forall a b, P a b -> Q a b) -> Forall2 P l l' -> Forall2 Q l l'.
Proof. intros H. induction 1; constructor; auto. Qed.

Section Load.
Variables (lower f : gostring -> gostring) (lc lc' : bool) (doc doc' : reader) (all all' : list gostring) (verbose : bool) (lb : Z).
Hypothesis HR : readable verbose lb doc all.
Hypothesis HR' : readable verbose lb doc' all'.
Let lw := used_words lower lc all.
Hypothesis HU : used_words lower lc' all' = map f lw.
Hypothesis inj : forall v w, In v lw -> In w lw -> f v = f w -> v = w.

Lemma lw_J : Forall (fun w => In w lw) lw.
Proof. apply Forall_forall. auto. Qed.
Lemma used_lowered l c : used_words lower c l = lowered lower c l.
Proof. destruct c; reflexivity. Qed.
Lemma len_all : length all' = length all.
Proof.
  assert (L : forall c l, length (used_words lower c l) = length l) by (intros c l; unfold used_words; destruct c; [apply map_length|reflexivity]).
  rewrite <- (L lc' all'), HU, map_length. apply L.
Qed.

Lemma distinct_map ws : (forall v w, In v ws -> In w ws -> f v = f w -> v = w) -> distinct (map f ws) = map f (distinct ws).
Proof.
  intros I. pose proof (dict_of_rn f (fun w => In w ws) I ws (proj2 (Forall_forall _ _) (fun w H => H))) as (E & _).
  pose proof (repr_words _ _ (dict_repr_of (map f ws))) as E1. rewrite E in E1. cbn [respelled_dict id2word] in E1.
  rewrite (repr_words _ _ (dict_repr_of ws)) in E1. congruence.
Qed.

Lemma word_ids : map (word_id (map f lw)) (map f lw) = map (word_id lw) lw.
Proof.
  rewrite map_map. apply map_ext_in. intros w Hw. destruct (dict_of_rn f (fun w => In w lw) inj lw lw_J) as (E & K).
  pose proof (dict_id_word_id _ _ (f w) (dict_repr_of (map f lw)) (in_map f _ _ Hw)) as E1. rewrite E in E1.
  rewrite (dict_id_rn f (fun w => In w lw) inj _ w Hw K), (dict_id_word_id _ _ w (dict_repr_of lw) Hw) in E1. congruence.
Qed.

Lemma fresh_rn mx mn b : fresh_loaded lower doc' lc' mx mn all' b = respelled f doc' lc' (fresh_loaded lower doc lc mx mn all b).
Proof.
  unfold fresh_loaded, respelled. cbn [c_doc c_dic c_cooc c_len c_idoc c_lower c_max c_min]. rewrite !lowered_eq, <- !used_lowered, HU. fold lw.
  rewrite (proj1 (dict_of_rn f (fun w => In w lw) inj lw lw_J)), word_ids, len_all. reflexivity.
Qed.

(** The raw words matter only to the file-backed co-occurrence pass. *)
Definition raw_ok (mem : bool) (w : option with_cooc) : Prop :=
  mem = true \/ w = None \/
  (all' = map f all /\ f [] = [] /\ forall v u, In v ([] :: all ++ lw) -> In u ([] :: all ++ lw) -> f v = f u -> v = u).

Lemma load_rn mem mx mn w : raw_ok mem w ->
  load_corpus lower mem lc' mx mn verbose lb w doc' =
  obind (load_corpus lower mem lc mx mn verbose lb w doc) (fun c => Ret (respelled f doc' lc' c)).
Proof.
  intros HW. destruct HR as (Hv & T1 & E1 & F1), HR' as (_ & T2 & E2 & F2). pose proof (report_ok _ _ Hv) as Hrep.
  unfold load_corpus. destruct mem; cbn [obind].
  - unfold mem_load. cbn [c_doc corpus_new]. rewrite (mem_first lower verbose lb doc lc mx mn all Hrep T1 E1 F1), (mem_first lower verbose lb doc' lc' mx mn all' Hrep T2 E2 F2).
    rewrite fresh_rn. destruct w as [w|]; [|reflexivity].
    destruct (co_new (w_type w)) as [co|e|]; [|reflexivity|reflexivity].
    change (c_idoc (respelled f doc' lc' ?c)) with (c_idoc c). destruct (mem_outer _ _ _ _ co) as [co' [u|e|]]; reflexivity.
  - unfold fs_load. cbn [c_doc corpus_new]. rewrite (fs_first lower verbose lb doc lc mx mn all Hrep T1 E1 F1), (fs_first lower verbose lb doc' lc' mx mn all' Hrep T2 E2 F2).
    rewrite fresh_rn. destruct w as [w|]; [|reflexivity].
    destruct (co_new (w_type w)) as [co|e|]; [|reflexivity|reflexivity].
    destruct HW as [HW|[HW|(Ea & f0 & inj2)]]; [discriminate|discriminate|].
    set (c0 := fresh_loaded lower doc lc mx mn all false). cbn [c_doc c_dic respelled]. change (c_doc c0) with doc.
    rewrite Ea in T2, F2. set (J := fun w => In w ([] :: all ++ lw)).
    rewrite (forward_rn f J inj2 (fs_pair verbose lb (c_dic c0)) (fs_pair verbose lb (respelled_dict f (c_dic c0)))) with (r := doc) (all := all).
    + destruct (read_word_with_forward_context _ _ _ co) as [co' [u|e|]]; reflexivity.
    + intros s a b Ja Jb. unfold fs_pair. cbn [fst snd].
      assert (K : in_J J (c_dic c0)).
      { unfold c0, fresh_loaded. cbn [c_dic]. rewrite lowered_eq, <- used_lowered. fold lw.
        apply (dict_of_rn f J inj2 lw). apply Forall_forall. intros x Hx. right. apply in_or_app. auto. }
      rewrite (dict_id_rn f J inj2 _ a Ja K), (dict_id_rn f J inj2 _ b Jb K). reflexivity.
    + exact f0.
    + left. reflexivity.
    + exact T1.
    + exact E1.
    + exact F1.
    + exact T2.
    + exact E2.
    + exact F2.
    + apply Forall_forall. intros x Hx. right. apply in_or_app. auto.
Qed.

Lemma for_each_rel {St A B} (g : callback St A) (g' : callback St B) l l' : Forall2 (fun a b => forall s, g' s b = g s a) l l' ->
  forall s, for_each g' s l' = for_each g s l.
Proof. induction 1 as [|a b l l' H1 H2 IH]; intros s; [reflexivity|]. cbn [for_each]. rewrite H1. destruct (g s a) as [s' [u|e|]]; auto. Qed.

Lemma batch_rn c (size : Z) : c_dic c = dict_add dict_new lw -> c_lower c = lc ->
  fs_batch_words lower (respelled f doc' lc' c) doc' size = fs_batch_words lower c doc size.
Proof.
  intros Hd Hl. destruct HR as (Hv & T1 & E1 & F1), HR' as (_ & T2 & E2 & F2). unfold fs_batch_words. destruct (size <? 0)%Z; [reflexivity|]. cbv zeta.
  rewrite (read_word_fits _ _ doc all T1 E1 F1), (read_word_fits _ _ doc' all' T2 E2 F2).
  rewrite (for_each_rel (batch_word lower c (Z.to_nat size)) (batch_word lower (respelled f doc' lc' c) (Z.to_nat size)) all all').
  { reflexivity. }
  destruct (dict_of_rn f (fun w => In w lw) inj lw lw_J) as (_ & K).
  assert (G : Forall2 (fun a b => f (low lower c a) = low lower (respelled f doc' lc' c) b /\ In (low lower c a) lw) all all').
  { assert (U : map (low lower c) all = lw). { unfold low, lw, used_words. rewrite Hl. destruct lc; [reflexivity|apply map_id]. }
    assert (U' : map (low lower (respelled f doc' lc' c)) all' = map f lw).
    { rewrite <- HU. unfold low, used_words. cbn [c_lower respelled]. destruct lc'; [reflexivity|apply map_id]. }
    clear - U U'. rewrite <- U in U'. assert (I : incl (map (low lower c) all) lw) by (rewrite U; apply incl_refl). clear U. clearbody lw. revert all' U' I.
    induction all as [|a l IH]; intros [|b l'] U' I; try discriminate U'; constructor.
    - cbn [map] in U'. split; [congruence|]. apply I. left. reflexivity.
    - apply IH; [cbn [map] in U'; congruence|]. intros x Hx. apply I. right. exact Hx. }
  refine (F2_impl _ _ _ _ _ G). intros a b (G1 & G2) s. unfold batch_word. cbv zeta. rewrite <- G1. cbn [c_dic c_max c_min respelled].
  rewrite (dict_id_rn f (fun w => In w lw) inj (c_dic c) _ G2 ltac:(rewrite Hd; exact K)). reflexivity.
Qed.

Lemma loaded_c mem mx mn w c : load_corpus lower mem lc mx mn verbose lb w doc = Ret c -> c_dic c = dict_add dict_new lw /\ c_lower c = lc /\ c_doc c = doc.
Proof.
  intros H. pose proof (RunSetup.loaded_facts lower mem lc mx mn verbose lb w doc all c HR H) as (Hd & _). rewrite <- used_lowered in Hd. split; [exact Hd|].
  apply RunSetup.load_corpus_fst in H. destruct HR as (Hv & T1 & E1 & F1). pose proof (report_ok _ _ Hv) as Hrep. destruct mem.
  - destruct (mem_load_state lower verbose lb doc lc mx mn all w Hrep T1 E1 F1) as (o & E & _). rewrite H, E. split; reflexivity.
  - destruct (fs_load_state lower verbose lb doc lc mx mn all w Hrep T1 E1 F1) as (o & E & _). rewrite H, E. split; reflexivity.
Qed.

Lemma source_rn mem mx mn w c G bsz : load_corpus lower mem lc mx mn verbose lb w doc = Ret c ->
  doc_source lower mem G bsz (respelled f doc' lc' c) = doc_source lower mem G bsz c.
Proof.
  intros H. destruct (loaded_c _ _ _ _ _ H) as (Hd & Hl & Hc). unfold doc_source. destruct mem.
  { unfold mem_indexed_doc. cbn [c_max c_min c_dic c_idoc respelled]. now rewrite indexed_rn. }
  change (c_doc (respelled f doc' lc' c)) with doc'. rewrite Hc, (batch_rn c bsz Hd Hl). reflexivity.
Qed.
End Load.

(** ** The models; the two option records differ at most in ToLower. *)
Lemma omap_trains {A B} (r : outcome A) (g : A -> outcome B) b : obind r g = Ret b <-> exists a, r = Ret a /\ g a = Ret b.
Proof. destruct r; cbn [obind]; split; intros H; [eauto|destruct H as (x & H1 & H2); congruence|discriminate|destruct H as (x & H1 & H2); discriminate|discriminate|destruct H as (x & H1 & H2); discriminate]. Qed.

Definition w2v_lc (b : bool) (o : w2v_opts) : w2v_opts :=
  W2vOpts (w2v_BatchSize o) (w2v_Dim o) (w2v_DocInMemory o) (w2v_Goroutines o) (w2v_Initlr o) (w2v_Iter o) (w2v_LogBatch o) (w2v_MaxCount o) (w2v_MaxDepth o) (w2v_MinCount o) (w2v_MinLR o) (w2v_ModelType o) (w2v_NegativeSampleSize o) (w2v_OptimizerType o) (w2v_SubsampleThreshold o) b (w2v_UpdateLRBatch o) (w2v_Verbose o) (w2v_Window o).
Lemma w2v_lc_same o : w2v_lc (w2v_ToLower o) o = o.
Proof. destruct o; reflexivity. Qed.
Lemma w2v_lc_on o : w2v_lc true o = w2v_apply W_ToLower o.
Proof. reflexivity. Qed.

Definition respelled_w2v (f : gostring -> gostring) (doc : reader) (b : bool) (w : w2v) : w2v :=
  W2v (respelled f doc b (wv_corpus w)) (wv_param w) (wv_samples w) (wv_mod w) (wv_opt w).

Section W2v.
Variables (exp : f64 -> f64) (lower f : gostring -> gostring) (rand : nat -> f64) (o : w2v_opts) (lc lc' : bool) (doc doc' : reader) (all all' : list gostring).
Hypothesis HR : readable (w2v_Verbose o) (w2v_LogBatch o) doc all.
Hypothesis HR' : readable (w2v_Verbose o) (w2v_LogBatch o) doc' all'.
Let lw := used_words lower lc all.
Hypothesis HU : used_words lower lc' all' = map f lw.
Hypothesis inj : forall v w, In v lw -> In w lw -> f v = f w -> v = w.

Lemma w2v_setup_rn : w2v_setup lower rand (w2v_lc lc' o) doc' = obind (w2v_setup lower rand (w2v_lc lc o) doc) (fun w => Ret (respelled_w2v f doc' lc' w)).
Proof.
  unfold w2v_setup.
  cbn [w2v_lc w2v_BatchSize w2v_Dim w2v_DocInMemory w2v_Goroutines w2v_Initlr w2v_Iter w2v_LogBatch w2v_MaxCount w2v_MaxDepth w2v_MinCount w2v_MinLR w2v_ModelType w2v_NegativeSampleSize w2v_OptimizerType w2v_SubsampleThreshold w2v_ToLower w2v_UpdateLRBatch w2v_Verbose w2v_Window].
  rewrite (load_rn lower f lc lc' doc doc' all all' _ _ HR HR' HU inj (w2v_DocInMemory o) (w2v_MaxCount o) (w2v_MinCount o) None (or_intror (or_introl eq_refl))).
  destruct (load_corpus _ _ _ _ _ _ _ _ _) as [c|e|]; cbn [obind]; [|reflexivity|reflexivity]. cbv zeta.
  change (c_dic (respelled f doc' lc' c)) with (respelled_dict f (c_dic c)). change (dict_len (respelled_dict f (c_dic c))) with (dict_len (c_dic c)).
  destruct (mat_new _ _ _ 0%nat) as [[k p]|e|]; cbn [obind]; [|reflexivity|reflexivity].
  rewrite subsample_rn.
  destruct (subsample_new _ _) as [sm|e|]; cbn [obind]; [|reflexivity|reflexivity].
  match goal with |- obind ?m _ = _ => destruct m as [md|e|]; cbn [obind]; [|reflexivity|reflexivity] end.
  rewrite huffman_rn.
  match goal with |- obind ?m _ = _ => destruct m as [op|e|]; cbn [obind]; reflexivity end.
Qed.

Lemma w2v_rn next lr w' : w2v_trained exp lower rand next lr (w2v_lc lc' o) doc' w' <->
  exists w, w2v_trained exp lower rand next lr (w2v_lc lc o) doc w /\ w' = respelled_w2v f doc' lc' w.
Proof.
  assert (S : forall w0, w2v_setup lower rand (w2v_lc lc o) doc = Ret w0 ->
            w2v_source lower (w2v_lc lc' o) (respelled_w2v f doc' lc' w0) = w2v_source lower (w2v_lc lc o) w0).
  { intros w0 H. apply RunSetup.w2v_setup_corpus in H. unfold w2v_source. cbn [respelled_w2v wv_corpus].
    exact (source_rn lower f lc lc' doc doc' all all' _ _ HR HR' HU inj _ _ _ _ _ _ _ H). }
  unfold w2v_trained. rewrite w2v_setup_rn. split.
  - intros (w0' & x & v & H1 & H2 & H3 & ->). apply omap_trains in H1 as (w0 & H1 & E).
    assert (w0' = respelled_w2v f doc' lc' w0) by congruence. subst w0'. clear E. rewrite (S _ H1) in H2.
    eexists. split; [exists w0, x, v; split; [exact H1|split; [exact H2|split; [exact H3|reflexivity]]]|reflexivity].
  - intros (w & (w0 & x & v & H1 & H2 & H3 & ->) & ->). exists (respelled_w2v f doc' lc' w0), x, v. rewrite H1. cbn [obind].
    split; [reflexivity|]. rewrite (S _ H1). split; [exact H2|]. split; [exact H3|reflexivity].
Qed.
End W2v.

Definition glv_lc (b : bool) (o : glv_opts) : glv_opts :=
  GlvOpts (glv_Alpha o) (glv_BatchSize o) (glv_CountType o) (glv_Dim o) (glv_DocInMemory o) (glv_Goroutines o) (glv_Initlr o) (glv_Iter o) (glv_LogBatch o) (glv_MaxCount o) (glv_MinCount o) (glv_SolverType o) (glv_SubsampleThreshold o) b (glv_Verbose o) (glv_Window o) (glv_Xmax o).

Lemma glv_lc_same o : glv_lc (glv_ToLower o) o = o.
Proof. destruct o; reflexivity. Qed.
Lemma glv_lc_on o : glv_lc true o = glv_apply G_ToLower o.
Proof. reflexivity. Qed.

Definition respelled_glv (f : gostring -> gostring) (g : glv) : glv := Glv (respelled_dict f (gl_dic g)) (gl_param g) (gl_solver g) (gl_items g).

Section Glv.
Variables (lower f : gostring -> gostring) (rand : nat -> f64) (flog : f64 -> f64) (fpow : f64 -> f64 -> f64) (order : list (Z * f64) -> list (Z * f64))
  (o : glv_opts) (lc lc' : bool) (doc doc' : reader) (all all' : list gostring).
Hypothesis HR : readable (glv_Verbose o) (glv_LogBatch o) doc all.
Hypothesis HR' : readable (glv_Verbose o) (glv_LogBatch o) doc' all'.
Let lw := used_words lower lc all.
Hypothesis HU : used_words lower lc' all' = map f lw.
Hypothesis inj : forall v w, In v lw -> In w lw -> f v = f w -> v = w.
Hypothesis HM : raw_ok lower f lc all all' (glv_DocInMemory o) (Some {| w_type := glv_CountType o; w_window := glv_Window o |}).

Lemma glv_setup_rn : glv_setup lower rand flog fpow order (glv_lc lc' o) doc' =
  obind (glv_setup lower rand flog fpow order (glv_lc lc o) doc) (fun g => Ret (respelled_glv f g)).
Proof.
  unfold glv_setup.
  cbn [glv_lc glv_Alpha glv_BatchSize glv_CountType glv_Dim glv_DocInMemory glv_Goroutines glv_Initlr glv_Iter glv_LogBatch glv_MaxCount glv_MinCount glv_SolverType glv_SubsampleThreshold glv_ToLower glv_Verbose glv_Window glv_Xmax].
  rewrite (load_rn lower f lc lc' doc doc' all all' _ _ HR HR' HU inj (glv_DocInMemory o) (glv_MaxCount o) (glv_MinCount o) _ HM).
  destruct (load_corpus _ _ _ _ _ _ _ _ _) as [c|e|]; cbn [obind]; [|reflexivity|reflexivity]. cbv zeta.
  change (c_dic (respelled f doc' lc' c)) with (respelled_dict f (c_dic c)). change (dict_len (respelled_dict f (c_dic c))) with (dict_len (c_dic c)).
  destruct (mat_new _ _ _ 0%nat) as [[k p]|e|]; cbn [obind]; [|reflexivity|reflexivity].
  match goal with |- obind ?m _ = _ => destruct m as [sol|e|]; cbn [obind]; [|reflexivity|reflexivity] end.
  change (c_cooc (respelled f doc' lc' c)) with (c_cooc c). destruct (c_cooc c) as [co|]; [|reflexivity].
  destruct (make_items _ _ _ _ _ _ _) as [it|e|]; reflexivity.
Qed.

Lemma glv_rn g' : glv_trained lower rand flog fpow order (glv_lc lc' o) doc' g' <->
  exists g, glv_trained lower rand flog fpow order (glv_lc lc o) doc g /\ g' = respelled_glv f g.
Proof.
  unfold glv_trained. rewrite glv_setup_rn. split.
  - intros (g0' & x & m & sol & H1 & H2 & H3 & ->). apply omap_trains in H1 as (g0 & H1 & E).
    assert (g0' = respelled_glv f g0) by congruence. subst g0'. clear E.
    eexists. split; [exists g0, x, m, sol; split; [exact H1|split; [exact H2|split; [exact H3|reflexivity]]]|reflexivity].
  - intros (g & (g0 & x & m & sol & H1 & H2 & H3 & ->) & ->). exists (respelled_glv f g0), x, m, sol. rewrite H1. cbn [obind].
    split; [reflexivity|]. split; [exact H2|]. split; [exact H3|reflexivity].
Qed.
End Glv.

Definition lex_lc (b : bool) (o : lex_opts) : lex_opts :=
  LexOpts (lex_BatchSize o) (lex_Dim o) (lex_DocInMemory o) (lex_Goroutines o) (lex_Initlr o) (lex_Iter o) (lex_LogBatch o) (lex_MaxCount o) (lex_MinCount o) (lex_MinLR o) (lex_NegativeSampleSize o) (lex_RelationType o) (lex_Smooth o) (lex_SubsampleThreshold o) b (lex_UpdateLRBatch o) (lex_Verbose o) (lex_Window o).
Lemma lex_lc_same o : lex_lc (lex_ToLower o) o = o.
Proof. destruct o; reflexivity. Qed.
Lemma lex_lc_on o : lex_lc true o = lex_apply L_ToLower o.
Proof. reflexivity. Qed.

Definition respelled_lxv (f : gostring -> gostring) (doc : reader) (b : bool) (l : lxv) : lxv :=
  Lxv (respelled f doc b (lx_corpus l)) (lx_param l) (lx_samples l) (lx_items l).

Section Lxv.
Variables (lower f : gostring -> gostring) (rand : nat -> f64) (flog : f64 -> f64) (fpow : f64 -> f64 -> f64) (order : list (Z * f64) -> list (Z * f64))
  (o : lex_opts) (lc lc' : bool) (doc doc' : reader) (all all' : list gostring).
Hypothesis HR : readable (lex_Verbose o) (lex_BatchSize o) doc all.
Hypothesis HR' : readable (lex_Verbose o) (lex_BatchSize o) doc' all'.
Let lw := used_words lower lc all.
Hypothesis HU : used_words lower lc' all' = map f lw.
Hypothesis inj : forall v w, In v lw -> In w lw -> f v = f w -> v = w.
Hypothesis HM : raw_ok lower f lc all all' (lex_DocInMemory o) (Some {| w_type := increment; w_window := lex_Window o |}).

Lemma lxv_setup_rn : lxv_setup lower rand flog fpow order (lex_lc lc' o) doc' =
  obind (lxv_setup lower rand flog fpow order (lex_lc lc o) doc) (fun l => Ret (respelled_lxv f doc' lc' l)).
Proof.
  unfold lxv_setup.
  cbn [lex_lc lex_BatchSize lex_Dim lex_DocInMemory lex_Goroutines lex_Initlr lex_Iter lex_LogBatch lex_MaxCount lex_MinCount lex_MinLR lex_NegativeSampleSize lex_RelationType lex_Smooth lex_SubsampleThreshold lex_ToLower lex_UpdateLRBatch lex_Verbose lex_Window].
  rewrite (load_rn lower f lc lc' doc doc' all all' _ _ HR HR' HU inj (lex_DocInMemory o) (lex_MaxCount o) (lex_MinCount o) _ HM).
  destruct (load_corpus _ _ _ _ _ _ _ _ _) as [c|e|]; cbn [obind]; [|reflexivity|reflexivity]. cbv zeta.
  change (c_dic (respelled f doc' lc' c)) with (respelled_dict f (c_dic c)). change (dict_len (respelled_dict f (c_dic c))) with (dict_len (c_dic c)).
  destruct (mat_new _ _ _ 0%nat) as [[k p]|e|]; cbn [obind]; [|reflexivity|reflexivity].
  rewrite subsample_rn.
  destruct (subsample_new _ _) as [sm|e|]; cbn [obind]; [|reflexivity|reflexivity].
  change (c_cooc (respelled f doc' lc' c)) with (c_cooc c). change (c_len (respelled f doc' lc' c)) with (c_len c). destruct (c_cooc c) as [co|]; [|reflexivity].
  rewrite make_items_rn.
  destruct (lex_make_items _ _ _ _ _ _ _ _ _) as [it|e|]; reflexivity.
Qed.

Lemma lxv_rn next lr l' : lxv_trained lower rand flog fpow order next lr (lex_lc lc' o) doc' l' <->
  exists l, lxv_trained lower rand flog fpow order next lr (lex_lc lc o) doc l /\ l' = respelled_lxv f doc' lc' l.
Proof.
  assert (S : forall l0, lxv_setup lower rand flog fpow order (lex_lc lc o) doc = Ret l0 ->
            lxv_source lower (lex_lc lc' o) (respelled_lxv f doc' lc' l0) = lxv_source lower (lex_lc lc o) l0).
  { intros l0 H. apply RunSetup.lxv_setup_corpus in H. unfold lxv_source. cbn [respelled_lxv lx_corpus].
    exact (source_rn lower f lc lc' doc doc' all all' _ _ HR HR' HU inj _ _ _ _ _ _ _ H). }
  unfold lxv_trained. rewrite lxv_setup_rn. split.
  - intros (l0' & x & v & H1 & H2 & H3 & ->). apply omap_trains in H1 as (l0 & H1 & E).
    assert (l0' = respelled_lxv f doc' lc' l0) by congruence. subst l0'. clear E. rewrite (S _ H1) in H2.
    eexists. split; [exists l0, x, v; split; [exact H1|split; [exact H2|split; [exact H3|reflexivity]]]|reflexivity].
  - intros (l & (l0 & x & v & H1 & H2 & H3 & ->) & ->). exists (respelled_lxv f doc' lc' l0), x, v. rewrite H1. cbn [obind].
    split; [reflexivity|]. rewrite (S _ H1). split; [exact H2|]. split; [exact H3|reflexivity].
Qed.
End Lxv.

(** ** Save *)
From Verif.Model Require Import Cells FmtFloat Vector.
From Verif.Spec Require Import Saved.
From Verif.Proofs Require Vector.
Local Open Scope Z_scope.

Lemma save_cells_app m i n : forall j a b, save_cells m i n j (a ++ b) = obind (save_cells m i n j b) (fun t => Ret (a ++ t)).
Proof.
  induction n as [|n IH]; intros j a b; [reflexivity|]. cbn [save_cells]. destruct (cell m i j) as [x|e|]; cbn [obind]; [|reflexivity|reflexivity].
  rewrite <- app_assoc. apply IH.
Qed.

(** What follows the word in each line. *)
Fixpoint tails_of (m : matrix) (verbose : bool) (lb : Z) (n : nat) (i : Z) : outcome (list gostring) :=
  match n with
  | O => Ret []
  | S k => obind (save_cells m i (Z.to_nat (m_col m)) 0 (bs " ")) (fun t =>
           if verbose && (lb =? 0) then Panic else obind (tails_of m verbose lb k (i + 1)) (fun ts => Ret ((t ++ newline) :: ts)))
  end.

Lemma save_cells_blank m i n : forall j b t, save_cells m i n j b = Ret t -> exists t', t = b ++ t'.
Proof.
  induction n as [|n IH]; intros j b t; cbn [save_cells].
  - intros E. exists []. rewrite app_nil_r. congruence.
  - destruct (cell m i j) as [x|e|]; cbn [obind]; [|discriminate|discriminate]. intros E. apply IH in E as (t' & ->). rewrite <- app_assoc. eexists. reflexivity.
Qed.

Lemma tails_shape m verbose lb n : forall i ts, tails_of m verbose lb n i = Ret ts -> length ts = n /\ Forall (fun t => exists t', t = bs " " ++ t') ts.
Proof.
  induction n as [|n IH]; intros i ts; cbn [tails_of].
  - intros E. assert (ts = []) by congruence. subst. split; [reflexivity|constructor].
  - destruct (save_cells _ _ _ _ _) as [t|e|] eqn:Et; cbn [obind]; [|discriminate|discriminate]. destruct (_ && _); [discriminate|].
    destruct (tails_of m verbose lb n (i + 1)) as [ts'|e|] eqn:E; cbn [obind]; [|discriminate|discriminate]. intros E'.
    assert (ts = (t ++ newline) :: ts') by congruence. subst ts. destruct (IH _ _ E) as (L & F). split; [cbn [length]; lia|]. constructor; [|exact F].
    apply save_cells_blank in Et as (t' & ->). rewrite <- app_assoc. eexists. reflexivity.
Qed.

Lemma save_rows_tails d m verbose lb words : id2word d = words -> maxid d = length words -> forall n i buf,
  (i + n = length words)%nat ->
  save_rows d m verbose lb n (Z.of_nat i) buf = obind (tails_of m verbose lb n (Z.of_nat i)) (fun ts => Ret (buf ++ file_with (skipn i words) ts)).
Proof.
  intros Hw Hm. induction n as [|n IH]; intros i buf Hi; cbn [save_rows tails_of].
  - cbn [obind]. rewrite skipn_all2 by lia. unfold file_with. cbn. now rewrite app_nil_r.
  - unfold dict_word. rewrite Hm. destruct (Z.of_nat i >=? Z.of_nat (length words)) eqn:E; [apply Z.geb_le in E; lia|].
    unfold zindex. destruct (Z.ltb_spec (Z.of_nat i) 0); [lia|]. rewrite Nat2Z.id, Hw.
    destruct (nth_error words i) as [w|] eqn:EW; [|apply nth_error_None in EW; lia]. cbn [obind].
    rewrite app_assoc, save_cells_app. destruct (save_cells m (Z.of_nat i) _ 0 (bs " ")) as [t|e|]; cbn [obind]; [|reflexivity|reflexivity].
    destruct (verbose && (lb =? 0)); [reflexivity|]. replace (Z.of_nat i + 1) with (Z.of_nat (S i)) by lia. rewrite IH by lia.
    destruct (tails_of _ _ _ n _) as [ts|e|]; cbn [obind]; [|reflexivity|reflexivity]. f_equal.
    assert (SK : skipn i words = w :: skipn (S i) words).
    { clear - EW. revert i EW. induction words as [|a l IHl]; intros [|i] EW; try discriminate EW; cbn in *; [congruence|]. exact (IHl i EW). }
    rewrite SK. unfold file_with. cbn [combine map concat fst snd]. rewrite <- !app_assoc. reflexivity.
Qed.

Lemma save_rn f ws m verbose lb cut : (forall t, concat (cut t) = t) ->
  same_file f (distinct ws) (save good_writer cut (dict_add dict_new ws) m verbose lb [])
                            (save good_writer cut (respelled_dict f (dict_add dict_new ws)) m verbose lb []).
Proof.
  intros Hc. pose proof (dict_repr_of ws) as R. unfold save. change (dict_len (respelled_dict f ?d)) with (dict_len d).
  destruct (negb _); [split; [reflexivity|split; reflexivity]|]. unfold dict_len. rewrite (repr_max _ _ R).
  pose proof (save_rows_tails (dict_add dict_new ws) m verbose lb (distinct ws) (repr_words _ _ R) (repr_max _ _ R) (length (distinct ws)) 0 [] (Nat.add_0_l _)) as E1.
  assert (E2 := save_rows_tails (respelled_dict f (dict_add dict_new ws)) m verbose lb (map f (distinct ws))
    ltac:(cbn [respelled_dict id2word]; now rewrite (repr_words _ _ R)) ltac:(cbn [respelled_dict maxid]; rewrite map_length; exact (repr_max _ _ R))
    (length (distinct ws)) 0 [] ltac:(rewrite map_length; reflexivity)).
  change (Z.of_nat 0) with 0 in E1, E2. rewrite E1, E2. destruct (tails_of _ _ _ _ _) as [ts|e|] eqn:ET; cbn [obind]; [|split; [reflexivity|split; reflexivity]|split; [reflexivity|split; reflexivity]].
  destruct (tails_shape _ _ _ _ _ _ ET) as (L & F). split; [reflexivity|]. cbn [snd fst]. exists ts. rewrite !Vector.bufio_good, !Hc. auto.
Qed.

Lemma respelled_id d : respelled_dict (fun w => w) d = d.
Proof.
  destruct d as [m l c x]. unfold respelled_dict. cbn [word2id id2word cfs maxid]. f_equal; [|apply map_id].
  rewrite <- (map_id m) at 2. apply map_ext. intros [a b]. reflexivity.
Qed.
