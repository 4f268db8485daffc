(** * C42, C46, C74, C75 *)
From Coq Require Import Lia Reals Lra Sorting.Permutation.
From Flocq Require Import Core BinarySingleNaN.
From Verif.Lib Require Import Go ListFacts F64 F64Facts.
From Verif.Spec Require Import Words Tokens Window Pairs Filter Rows Cells Readable.
From Verif.Model Require Import Dictionary Encode Cooc Reader Corpus Matrix Subsample Huffman Word2vec Cells Glove Lexvec Options Train.
From Verif.Proofs Require Import Dictionary Encode Tokens Reader Cooc Corpus Matrix Word2vec Subsample HuffProps Items LexItems AdaGrad Train.
Local Open Scope Z_scope.

Lemma eqb_false_of a b : a <> b -> String.eqb a b = false.
Proof. apply String.eqb_neq. Qed.

Lemma dict_len_distinct ws : dict_len (dict_add dict_new ws) = length (distinct ws).
Proof. apply (repr_len ws _ (dict_repr_of ws)). Qed.

Lemma used_lowered lower b all : used_words lower b all = lowered lower b all.
Proof. reflexivity. Qed.

Lemma w2v_unknown_model lower rand o doc all :
  readable (w2v_Verbose o) (w2v_LogBatch o) doc all -> 0 <= w2v_Dim o ->
  ~ In (w2v_ModelType o) ["skipgram"; "cbow"]%string ->
  exists e, forall run, w2v_train lower rand run o doc = Err e.
Proof.
  intros HR HD HM. destruct (w2v_setup_prefix lower rand o doc all HR HD) as (c & rows & samples & _ & _ & _ & _ & _ & _ & _ & E).
  eexists. intros run. unfold w2v_train. rewrite E.
  rewrite (eqb_false_of _ skipgram_type), (eqb_false_of _ cbow_type); [reflexivity| |]; intros Hx; apply HM; rewrite Hx; cbn; auto.
Qed.

Lemma model_cases o : 0 <= w2v_Goroutines o -> 0 <= w2v_Dim o ->
  let k := (if String.eqb (w2v_ModelType o) skipgram_type then new_mod SkipGram (w2v_Goroutines o) (w2v_Dim o)
         else if String.eqb (w2v_ModelType o) cbow_type then new_mod Cbow (w2v_Goroutines o) (w2v_Dim o)
         else Err "invalid model") in
  (In (w2v_ModelType o) ["skipgram"; "cbow"]%string /\ k = Ret (if String.eqb (w2v_ModelType o) "cbow" then Cbow else SkipGram)) \/
  (k = Err "invalid model" /\ ~ In (w2v_ModelType o) ["skipgram"; "cbow"]%string).
Proof.
  intros HG HD. cbv zeta.
  assert (N : forall md, new_mod md (w2v_Goroutines o) (w2v_Dim o) = Ret md).
  { intros md. unfold new_mod. destruct (Z.ltb_spec (w2v_Goroutines o) 0); [lia|]. destruct (Z.ltb_spec (w2v_Dim o) 0); [lia|]. rewrite andb_false_r. reflexivity. }
  rewrite !N. destruct (String.eqb_spec (w2v_ModelType o) skipgram_type) as [E|E].
  - left. rewrite E. split; [cbn; auto|reflexivity].
  - destruct (String.eqb_spec (w2v_ModelType o) cbow_type) as [E2|E2].
    + left. rewrite E2. split; [cbn; auto|reflexivity].
    + right. split; [reflexivity|]. intros [H|[H|[]]]; [apply E|apply E2]; rewrite <- H; reflexivity.
Qed.

Lemma w2v_unknown_optimizer lower rand o doc all :
  readable (w2v_Verbose o) (w2v_LogBatch o) doc all -> 0 <= w2v_Dim o -> 0 <= w2v_Goroutines o ->
  ~ In (w2v_OptimizerType o) ["ns"; "hs"]%string ->
  exists e, forall run, w2v_train lower rand run o doc = Err e.
Proof.
  intros HR HD HG HM. destruct (w2v_setup_prefix lower rand o doc all HR HD) as (c & rows & samples & _ & _ & _ & _ & _ & _ & _ & E).
  destruct (model_cases o HG HD) as [(_ & EM)|(EM & _)]; rewrite EM in E; cbn [obind] in E.
  - rewrite (eqb_false_of _ ns_type), (eqb_false_of _ hs_type) in E;
      [|intros Hx; apply HM; rewrite Hx; cbn; auto|intros Hx; apply HM; rewrite Hx; cbn; auto]. cbn [obind] in E.
    eexists. intros run. unfold w2v_train. rewrite E. reflexivity.
  - eexists. intros run. unfold w2v_train. rewrite E. reflexivity.
Qed.

Lemma w2v_starts lower rand o doc all :
  readable (w2v_Verbose o) (w2v_LogBatch o) doc all -> 0 <= w2v_Dim o -> 0 <= w2v_Goroutines o ->
  In (w2v_ModelType o) ["skipgram"; "cbow"]%string -> In (w2v_OptimizerType o) ["ns"; "hs"]%string ->
  let lw := used_words lower (w2v_ToLower o) all in
  let V := length (distinct lw) in let dim := Z.to_nat (w2v_Dim o) in
  exists c rows samples opt,
    (forall run, w2v_train lower rand run o doc =
       run (W2v c (of_rows dim rows) samples (if String.eqb (w2v_ModelType o) "cbow" then Cbow else SkipGram) opt)) /\
    c_dic c = dict_add dict_new lw /\ c_len c = length all /\
    length rows = V /\ all_len dim rows /\ length samples = V /\
    match opt with
    | NS ctx n => w2v_OptimizerType o = "ns"%string /\ n = w2v_NegativeSampleSize o /\
        exists crows, ctx = of_rows dim crows /\ length crows = V /\ all_len dim crows
    | HS h leaves depth => w2v_OptimizerType o = "hs"%string /\ depth = w2v_MaxDepth o /\
        leaves = seq 0 V /\ huffman_tree (dict_add dict_new lw) (w2v_Dim o) = Ret (h, leaves)
    end.
Proof.
  intros HR HD HG HM HO lw V dim.
  destruct (w2v_setup_prefix lower rand o doc all HR HD) as (c & rows & samples & Ed & El & L & A & Ls & _ & _ & E).
  destruct (model_cases o HG HD) as [(_ & EM)|(_ & EM)]; [|contradiction]. rewrite EM in E. cbn [obind] in E.
  change (lowered lower (w2v_ToLower o) all) with lw in *. rewrite dict_len_distinct in *. fold V dim in L, A, Ls, E.
  destruct HO as [HO|[HO|[]]]; rewrite <- HO in E.
  - change (String.eqb "ns" ns_type) with true in E. cbv iota in E.
    destruct (mat_new_fill (centered rand (w2v_Dim o)) V dim (V * dim)) as (crows & Ec & Lc & Ac & _).
    unfold dim in Ec. rewrite Z2Nat.id in Ec by assumption. fold dim in Ec. rewrite Ec in E. cbn [obind] in E.
    exists c, rows, samples, (NS (of_rows dim crows) (w2v_NegativeSampleSize o)).
    split; [intros run; unfold w2v_train; rewrite E; reflexivity|]. repeat (split; [assumption|]). split; [auto|]. split; [auto|]. exists crows. auto.
  - change (String.eqb "hs" ns_type) with false in E. change (String.eqb "hs" hs_type) with true in E. cbv iota in E.
    destruct (huffman_total lw (w2v_Dim o) HD) as (h & Eh). rewrite dict_len_distinct in Eh. fold V in Eh. rewrite Eh in E. cbn [obind] in E.
    exists c, rows, samples, (HS h (seq 0 V) (w2v_MaxDepth o)).
    split; [intros run; unfold w2v_train; rewrite E; reflexivity|]. repeat (split; [assumption|]). auto.
Qed.

Lemma glv_unknown lower rand flog fpow order o doc all :
  readable (glv_Verbose o) (glv_LogBatch o) doc all -> 0 <= glv_Dim o ->
  glv_DocInMemory o = true \/ 1 <= glv_Window o ->
  ~ In (glv_CountType o) ["inc"; "prox"]%string \/ ~ In (glv_SolverType o) ["sgd"; "adagrad"]%string ->
  exists e, forall run, glv_train lower rand flog fpow order run o doc = Err e.
Proof.
  intros HR HD HW HX. unfold glv_train.
  destruct (co_new_cases (glv_CountType o)) as [(co & Eco & _ & HC)|(H1 & H2)].
  - destruct HX as [HX|HX].
    { exfalso. apply HX. destruct HC as [-> | ->]; cbn; auto. }
    destruct (glv_setup_prefix lower rand flog fpow order o doc all HR HD HW co Eco) as (rows & _ & _ & _ & E).
    rewrite E. rewrite (eqb_false_of _ sgd_type), (eqb_false_of _ adagrad_type);
      [|intros Hx; apply HX; rewrite Hx; cbn; auto|intros Hx; apply HX; rewrite Hx; cbn; auto].
    destruct (co_adds_res (fed_pairs lower (glv_DocInMemory o) (glv_ToLower o) (glv_Window o) all) co) as [-> | (e & ->)]; eexists; intros run; reflexivity.
  - exists err_count_type. intros run. rewrite (glv_bad_count lower rand flog fpow order o doc all HR H1 H2). reflexivity.
Qed.

Lemma lxv_unknown lower rand flog fpow order o doc all :
  readable (lex_Verbose o) (lex_BatchSize o) doc all -> 0 <= lex_Dim o ->
  lex_DocInMemory o = true \/ 1 <= lex_Window o -> (forall m, Permutation (order m) m) ->
  ~ In (lex_RelationType o) ["ppmi"; "pmi"; "co"; "logco"]%string ->
  if lex_DocInMemory o && ((lex_Window o <? 1) || (length all <? 2)%nat)
  then exists s, forall run, lxv_train lower rand flog fpow order run o doc = run s
  else exists e, forall run, lxv_train lower rand flog fpow order run o doc = Err e.
Proof.
  intros HR HD HW HP HK. unfold lxv_train.
  destruct (lxv_setup_prefix lower rand flog fpow order o doc all HR HD HW) as (c & rows & samples & co & Eco & _ & _ & _ & _ & _ & _ & _ & _ & E).
  rewrite E.
  pose proof (fed_nonempty lower (lex_DocInMemory o) (lex_ToLower o) (lex_Window o) all HW) as FN.
  destruct (lex_DocInMemory o && ((lex_Window o <? 1) || (length all <? 2)%nat)) eqn:B.
  - assert (F0 : fed_pairs lower (lex_DocInMemory o) (lex_ToLower o) (lex_Window o) all = []).
    { apply andb_true_iff in B. destruct B as (B1 & B2). destruct (fed_pairs _ _ _ _ _) as [|p l]; [reflexivity|].
      exfalso. destruct (proj1 FN ltac:(discriminate)) as [H|(H & H')]; [congruence|].
      apply orb_true_iff in B2. destruct B2 as [B2|B2]; [apply Z.ltb_lt in B2|apply Nat.ltb_lt in B2]; lia. }
    rewrite F0 in Eco. cbn in Eco. subst co. cbn [co_ma].
    assert (order [] = []) as ->. { apply Permutation_nil. symmetry. apply HP. }
    eexists. intros run. cbn. reflexivity.
  - assert (F1 : fed_pairs lower (lex_DocInMemory o) (lex_ToLower o) (lex_Window o) all <> []).
    { apply FN. destruct (lex_DocInMemory o); [right|left; reflexivity]. cbn [andb] in B. apply orb_false_iff in B.
      destruct B as (B1 & B2). apply Z.ltb_ge in B1. apply Nat.ltb_ge in B2. auto. }
    apply inc_nonempty in F1. rewrite <- Eco in F1.
    assert (order (co_ma co) <> []) as F2. { intros Ho. apply F1. apply Permutation_nil. rewrite <- Ho. apply HP. }
    eexists. intros run. rewrite items_unknown by assumption. reflexivity.
Qed.

Lemma load_ignores lower mem lc maxc minc maxc' minc' verbose lb w doc :
  match load_corpus lower mem lc maxc minc verbose lb w doc, load_corpus lower mem lc maxc' minc' verbose lb w doc with
  | Ret c, Ret c' => c_dic c = c_dic c' /\ c_cooc c = c_cooc c' /\ c_len c = c_len c'
  | Err e, Err e' => e = e'
  | Panic, Panic => True
  | _, _ => False
  end.
Proof.
  unfold load_corpus.
  set (R := fun c c' : corpus => c_doc c = c_doc c' /\ c_dic c = c_dic c' /\ c_cooc c = c_cooc c' /\ c_len c = c_len c' /\ c_idoc c = c_idoc c' /\ c_lower c = c_lower c').
  assert (R0 : R (corpus_new doc lc maxc minc) (corpus_new doc lc maxc' minc')) by (unfold R; cbn; auto 10).
  set (P := fun r r' : corpus * outcome unit => R (fst r) (fst r') /\ snd r = snd r').
  assert (FE : forall (fn : callback corpus gostring), (forall c c' x, R c c' -> P (fn c x) (fn c' x)) ->
     forall l c c', R c c' -> P (for_each fn c l) (for_each fn c' l)).
  { intros fn Hfn. induction l as [|x l IH]; intros c c' H; [split; [exact H|reflexivity]|]. cbn [for_each].
    destruct (Hfn c c' x H) as (A & B). destruct (fn c x) as [c1 o1], (fn c' x) as [c1' o1']. cbn [fst snd] in *. subst o1'.
    destruct o1; [apply IH; exact A|split; auto..]. }
  assert (RW : forall (fn : callback corpus gostring) c c', (forall c c' x, R c c' -> P (fn c x) (fn c' x)) -> R c c' ->
     P (read_word doc fn c) (read_word doc fn c')).
  { intros fn c c' Hfn H. unfold read_word. destruct (scanner _) as [ws err]. destruct (FE fn Hfn ws c c' H) as (A & B).
    destruct (for_each fn c ws) as [c1 o1], (for_each fn c' ws) as [c1' o1']. cbn [fst snd] in *. subst o1'. destruct o1; split; auto. }
  assert (Fin : forall r r' : corpus * outcome unit, P r r' ->
     match (let (c, r) := r in obind r (fun _ => Ret c)), (let (c, r) := r' in obind r (fun _ => Ret c)) with
     | Ret c, Ret c' => c_dic c = c_dic c' /\ c_cooc c = c_cooc c' /\ c_len c = c_len c'
     | Err e, Err e' => e = e' | Panic, Panic => True | _, _ => False end).
  { intros [c o] [c' o'] (A & B). cbn [fst snd] in *. subst o'. unfold R in A. destruct o; cbn [obind]; tauto. }
  destruct mem; apply Fin.
  - unfold mem_load. cbn [c_doc corpus_new].
    assert (W : P (read_word doc (mem_load_word lower verbose lb) (corpus_new doc lc maxc minc)) (read_word doc (mem_load_word lower verbose lb) (corpus_new doc lc maxc' minc'))).
    { apply RW; [|exact R0]. intros c c' x (A & B & C & D & E & F). unfold mem_load_word, low. rewrite F, B, D, E, A, C.
      destruct (dict_id _ _) as [id ?]. split; [|reflexivity]. unfold R. cbn. auto 10. }
    destruct W as (A & B). destruct (read_word doc _ (corpus_new doc lc maxc minc)) as [c o], (read_word doc _ (corpus_new doc lc maxc' minc')) as [c' o'].
    cbn [fst snd] in *. subst o'. destruct o as [u|e|]; [|split; auto..]. destruct w as [w|]; [|split; auto].
    unfold R in A. destruct A as (A1 & A2 & A3 & A4 & A5 & A6).
    destruct (co_new (w_type w)); [|split; [unfold R; cbn; auto 10|reflexivity]..].
    rewrite A5. destruct (mem_outer _ _ _ _) as [co' o]. split; [unfold R; cbn; auto 10|reflexivity].
  - unfold fs_load. cbn [c_doc corpus_new].
    assert (W : P (read_word doc (fs_load_word lower verbose lb) (corpus_new doc lc maxc minc)) (read_word doc (fs_load_word lower verbose lb) (corpus_new doc lc maxc' minc'))).
    { apply RW; [|exact R0]. intros c c' x (A & B & C & D & E & F). unfold fs_load_word, low. rewrite F, B, D, E, A, C.
      split; [|reflexivity]. unfold R. cbn. auto 10. }
    destruct W as (A & B). destruct (read_word doc _ (corpus_new doc lc maxc minc)) as [c o], (read_word doc _ (corpus_new doc lc maxc' minc')) as [c' o'].
    cbn [fst snd] in *. subst o'. destruct o as [u|e|]; [|split; auto..]. destruct w as [w|]; [|split; auto].
    unfold R in A. destruct A as (A1 & A2 & A3 & A4 & A5 & A6).
    destruct (co_new (w_type w)); [|split; [unfold R; cbn; auto 10|reflexivity]..].
    rewrite A1, A2. destruct (read_word_with_forward_context _ _ _ _) as [co' o]. split; [unfold R; cbn; auto 10|reflexivity].
Qed.

Lemma glv_ignores lower rand flog fpow order o doc minc maxc run :
  glv_train lower rand flog fpow order run (glv_apply (G_MinCount minc) (glv_apply (G_MaxCount maxc) o)) doc =
  glv_train lower rand flog fpow order run o doc.
Proof.
  unfold glv_train, glv_setup. destruct o as [x1 x2 x3 x4 x5 x6 x7 x8 x9 x10 x11 x12 x13 x14 x15 x16 x17].
  cbn [glv_apply glv_Alpha glv_BatchSize glv_CountType glv_Dim glv_DocInMemory glv_Goroutines glv_Initlr glv_Iter glv_LogBatch glv_MaxCount glv_MinCount glv_SolverType glv_SubsampleThreshold glv_ToLower glv_Verbose glv_Window glv_Xmax].
  match goal with |- context [load_corpus _ ?a ?b maxc minc ?d ?e ?f doc] => match goal with |- context [load_corpus _ a b ?mx ?mn d e f doc] => 
    lazymatch mx with maxc => fail | _ => pose proof (load_ignores lower a b maxc minc mx mn d e f doc) as H end end end.
  destruct (load_corpus _ _ _ maxc minc _ _ _ _) as [c|e|], (load_corpus _ _ _ _ _ _ _ _ _) as [c'|e'|]; try contradiction; cbn [obind]; try congruence; auto.
  destruct H as (-> & -> & _). reflexivity.
Qed.

Lemma glv_ready lower rand flog fpow order o doc all :
  readable (glv_Verbose o) (glv_LogBatch o) doc all -> 0 <= glv_Dim o ->
  glv_DocInMemory o = true \/ 1 <= glv_Window o -> glv_CountType o = "inc"%string ->
  In (glv_SolverType o) ["sgd"; "adagrad"]%string ->
  let lw := used_words lower (glv_ToLower o) all in
  let c := fst (for_each (fun c p => co_add c (fst p) (snd p)) {| co_typ := increment; co_ma := [] |} (fed_pairs lower (glv_DocInMemory o) (glv_ToLower o) (glv_Window o) all)) in
  exists rows sol, length rows = (2 * length (distinct lw))%nat /\ all_len (S (Z.to_nat (glv_Dim o))) rows /\
    glv_setup lower rand flog fpow order o doc =
    Ret (Glv (dict_add dict_new lw) (of_rows (S (Z.to_nat (glv_Dim o))) rows) sol (map (make_item flog fpow (glv_Xmax o) (glv_Alpha o)) (order (co_ma c)))).
Proof.
  intros HR HD HW HC HS lw c.
  assert (Eco : co_new (glv_CountType o) = Ret {| co_typ := increment; co_ma := [] |}) by (rewrite HC; reflexivity).
  destruct (glv_setup_prefix lower rand flog fpow order o doc all HR HD HW _ Eco) as (rows & L & A & _ & E).
  rewrite inc_run in E by reflexivity. cbn [obind] in E. fold c in E.
  change (lowered lower (glv_ToLower o) all) with lw in *. rewrite dict_len_distinct in *.
  destruct HS as [HS|[HS|[]]]; rewrite <- HS in E.
  - change (String.eqb "sgd" sgd_type) with true in E. cbv iota in E. cbn [obind] in E. exists rows, Stochastic. split; [lia|]. auto.
  - change (String.eqb "adagrad" sgd_type) with false in E. change (String.eqb "adagrad" adagrad_type) with true in E. cbv iota in E.
    destruct (mat_ones (length (distinct lw)) (Z.to_nat (glv_Dim o))) as (gs & Eg & _). rewrite Z2Nat.id in Eg by assumption. rewrite Eg in E. cbn [obind] in E.
    exists rows, (AdaGrad (of_rows (S (Z.to_nat (glv_Dim o))) gs)). split; [lia|]. auto.
Qed.

Lemma glv_items lower rand flog fpow order o doc all :
  readable (glv_Verbose o) (glv_LogBatch o) doc all -> 0 <= glv_Dim o ->
  glv_DocInMemory o = true -> glv_CountType o = "inc"%string ->
  In (glv_SolverType o) ["sgd"; "adagrad"]%string -> (forall m, Permutation (order m) m) ->
  let lw := used_words lower (glv_ToLower o) all in
  Z.of_nat (length (distinct lw)) <= 2 ^ 32 ->
  exists d rows sol items,
    (forall run, glv_train lower rand flog fpow order run o doc =
       run (Glv d (of_rows (S (Z.to_nat (glv_Dim o))) rows) sol items)) /\
    d = dict_add dict_new lw /\
    length rows = (2 * length (distinct lw))%nat /\ all_len (S (Z.to_nat (glv_Dim o))) rows /\
    NoDup (map (fun it => (it_l1 it, it_l2 it)) items) /\
    (forall l1 l2, (exists x w, In (Item l1 l2 x w) items) <->
       exists w1 w2, In (w1, w2) (window_pairs (Z.to_nat (glv_Window o)) lw) /\
         let a := Z.of_nat (fst (dict_id d w1)) in let b := Z.of_nat (fst (dict_id d w2)) in
         l1 = Z.min a b /\ l2 = Z.max a b).
Proof.
  intros HR HD HMem HC HS HP lw Hv.
  destruct (glv_ready lower rand flog fpow order o doc all HR HD (or_introl HMem) HC HS) as (rows & sol & L & A & E). fold lw in L, E.
  set (c := fst (for_each _ _ _)) in E.
  assert (IN : Forall (fun p => in32 (fst p) /\ in32 (snd p)) (fed_pairs lower (glv_DocInMemory o) (glv_ToLower o) (glv_Window o) all)).
  { apply fed_in32. exact Hv. }
  destruct (items_lemma flog fpow (glv_Xmax o) (glv_Alpha o) "inc" _ _ (order (co_ma c)) _ _ eq_refl IN (proj1 HR) (HP _)) as (items & E1 & _ & E3 & E4).
  rewrite make_items_map in E1 by apply HR. injection E1 as <-.
  eexists; exists rows, sol; eexists. split; [intros run; unfold glv_train; rewrite E; reflexivity|].
  split; [reflexivity|]. split; [exact L|]. split; [exact A|]. split; [exact E3|].
  destruct (inc_counts_lemma _ IN) as (c0 & c1 & F1 & F2 & F3 & F4 & _). injection F1 as <-.
  assert (Ec : c = c1) by (unfold c; change increment with "inc"%string; rewrite F2; reflexivity). 
  intros l1 l2.
  transitivity (in32 l1 /\ in32 l2 /\ l1 <= l2 /\ exists f, mget Z.eq_dec (encode_bigram l1 l2) (co_ma c1) = Some f).
  { split.
    - intros (x & w & H). apply E4 in H. change (fst (for_each _ _ _)) with c in H. rewrite Ec in H. destruct H as (H1 & H2 & H3 & f & H4 & _). eauto 10.
    - intros (H1 & H2 & H3 & f & H4). eexists. eexists. apply E4. change (fst (for_each _ _ _)) with c. rewrite Ec. split; [exact H1|]. split; [exact H2|]. split; [exact H3|]. exists f. eauto. }
  assert (ID : forall w, In w lw -> Z.of_nat (fst (dict_id (dict_add dict_new lw) w)) = Z.of_nat (word_id lw w)).
  { intros w Hw. rewrite (dict_id_word_id lw _ w (dict_repr_of lw) Hw). reflexivity. }
  assert (FED : forall p, In p (fed_pairs lower (glv_DocInMemory o) (glv_ToLower o) (glv_Window o) all) <->
     exists w1 w2, In (w1, w2) (window_pairs (Z.to_nat (glv_Window o)) lw) /\ p = (Z.of_nat (word_id lw w1), Z.of_nat (word_id lw w2))).
  { intros p. unfold fed_pairs. rewrite HMem. change (lowered lower (glv_ToLower o) all) with lw. rewrite in_map_iff. split.
    - intros ([w1 w2] & <- & H). eauto.
    - intros (w1 & w2 & H & ->). exists (w1, w2). auto. }
  split.
  - intros (H1 & H2 & H3 & f & H4). apply mget_In in H4. apply F4 in H4. destruct H4 as (p & Hp & He).
    rewrite Forall_forall in IN. pose proof (IN p Hp) as (I1 & I2). apply encode_bigram_inj in He; [|assumption..].
    apply FED in Hp. destruct Hp as (w1 & w2 & Hw & ->). cbn [fst snd] in He. exists w1, w2. split; [exact Hw|].
    pose proof (In_window _ _ _ Hw) as (Hw1 & Hw2). cbn [fst snd] in Hw1, Hw2. cbv zeta. rewrite (ID w1 Hw1), (ID w2 Hw2). lia.
  - intros (w1 & w2 & Hw & Hl). pose proof (In_window _ _ _ Hw) as (Hw1 & Hw2). cbn [fst snd] in Hw1, Hw2. cbv zeta in Hl. rewrite (ID w1 Hw1), (ID w2 Hw2) in Hl.
    set (a := Z.of_nat (word_id lw w1)) in *. set (b := Z.of_nat (word_id lw w2)) in *.
    assert (Hp : In (a, b) (fed_pairs lower (glv_DocInMemory o) (glv_ToLower o) (glv_Window o) all)) by (apply FED; exists w1, w2; auto).
    rewrite Forall_forall in IN. pose proof (IN _ Hp) as (I1 & I2). cbn [fst snd] in I1, I2.
    assert (encode_bigram l1 l2 = encode_bigram a b) as ->.
    { destruct Hl as (-> & ->). destruct (Z.le_ge_cases a b); [rewrite Z.min_l, Z.max_r by lia; reflexivity|rewrite Z.min_r, Z.max_l by lia; apply encode_bigram_sym]. }
    split; [destruct Hl; subst; unfold in32 in *; lia|]. split; [destruct Hl; subst; unfold in32 in *; lia|]. split; [lia|].
    specialize (F3 a b I1 I2). destruct (pair_count Z.eq_dec a b _) eqn:PC.
    + exfalso. unfold pair_count in PC. apply length_zero_iff_nil in PC.
      assert (HH : In (a, b) (filter (same_pair Z.eq_dec (a, b)) (fed_pairs lower (glv_DocInMemory o) (glv_ToLower o) (glv_Window o) all))).
      { apply filter_In. split; [exact Hp|]. cbn. destruct (Z.eq_dec a a), (Z.eq_dec b b); try congruence. reflexivity. }
      rewrite PC in HH. destruct HH.
    + destruct F3 as (v & Hv' & _). eauto.
Qed.

(** ** Initial values *)
Local Open Scope R_scope.
Definition unit_rand (rand : nat -> f64) : Prop := forall k, is_fin (rand k) = true /\ 0 <= f2r (rand k) < 1.

Lemma half_val : is_fin (f_dec 5 1) = true /\ f2r (f_dec 5 1) = 1 / 2.
Proof.
  destruct (fshow_spec (f_dec 5 1) (2 ^ 52) (-53)) as (A & B); [vm_compute; reflexivity|]. split; [exact A|]. rewrite B.
  replace (IZR (2 ^ 52)) with (bpow radix2 52) by (rewrite <- IZR_Zpower by lia; reflexivity). rewrite <- bpow_plus. cbn. lra.
Qed.

Lemma fin_key (x : f64) : is_fin x = true -> isnan x = false /\ fkey x = f2r x.
Proof. destruct x; try discriminate; auto. Qed.

Lemma fle_fin x y : is_fin x = true -> is_fin y = true -> f2r x <= f2r y -> fle x y = true.
Proof. intros Hx Hy H. apply fle_spec. destruct (fin_key x Hx) as (A & ->), (fin_key y Hy) as (B & ->). auto. Qed.

Lemma div_dim x dim : is_fin x = true -> Rabs (f2r x) <= 1 -> (1 <= dim <= 2 ^ 53)%Z ->
  f2r (fdiv x (f_of_Z dim)) = rnd (f2r x / IZR dim) /\ is_fin (fdiv x (f_of_Z dim)) = true.
Proof.
  intros Hx Hb Hd. destruct (f_of_Z_exact dim) as (Ed & Fd); [lia|]. rewrite <- Ed.
  assert (D1 : 1 <= IZR dim) by (apply (IZR_le 1); lia).
  apply fdiv_fin; [exact Hx|rewrite Ed; lra|]. apply (rnd_small _ (f_of_Z 1)). rewrite Ed.
  destruct (f_of_Z_exact 1) as (-> & _); [lia|]. unfold Rdiv. rewrite Rabs_mult, (Rabs_pos_eq (/ IZR dim)) by (left; apply Rinv_0_lt_compat; lra).
  rewrite <- (Rmult_1_r 1). apply Rmult_le_compat; try apply Rabs_pos; try lra.
  - left. apply Rinv_0_lt_compat. lra.
  - rewrite <- Rinv_1. apply Rinv_le_contravar; lra.
Qed.

Lemma centered_range rand dim k : unit_rand rand -> (1 <= dim <= 2 ^ 53)%Z ->
  let b := fdiv (f_dec 5 1) (f_of_Z dim) in
  fle (fopp b) (centered rand dim k) = true /\ fle (centered rand dim k) b = true.
Proof.
  intros HU HD b. destruct (HU k) as (Fr & Hr). destruct half_val as (Fh & Eh).
  assert (HS : Rabs (f2r (rand k) - f2r (f_dec 5 1)) <= f2r (f_dec 5 1)) by (rewrite Eh; apply Rabs_le; lra).
  destruct (fsub_fin (rand k) (f_dec 5 1) Fr Fh) as (Es & Fs); [apply (rnd_small _ (f_dec 5 1)); exact HS|].
  assert (HA : Rabs (f2r (fsub (rand k) (f_dec 5 1))) <= 1 / 2).
  { rewrite Es, <- rnd_abs, <- Eh. apply rnd_le_f. exact HS. }
  destruct (div_dim (fsub (rand k) (f_dec 5 1)) dim Fs ltac:(lra) HD) as (Ec & Fc).
  destruct (div_dim (f_dec 5 1) dim Fh ltac:(rewrite Eh; rewrite Rabs_pos_eq; lra) HD) as (Eb & Fb). fold b in Eb, Fb.
  assert (D1 : 1 <= IZR dim) by (apply (IZR_le 1); lia).
  assert (Hinv : 0 < / IZR dim) by (apply Rinv_0_lt_compat; lra).
  apply Rabs_le_inv in HA. unfold centered. split; apply fle_fin; auto.
  - unfold fopp. rewrite is_finite_Bopp. exact Fb.
  - unfold fopp. change (f2r (Bopp b)) with (B2R (Bopp b)). rewrite B2R_Bopp. change (B2R b) with (f2r b). rewrite Ec, Eb, <- rnd_opp. apply rnd_le. rewrite Eh. unfold Rdiv. nra.
  - rewrite Ec, Eb. apply rnd_le. rewrite Eh. unfold Rdiv. nra.
Qed.

Lemma scaled_range rand dim k : unit_rand rand -> (1 <= dim <= 2 ^ 53)%Z ->
  fle fzero (scaled rand dim k) = true /\ fle (scaled rand dim k) (fdiv (f_of_Z 1) (f_of_Z dim)) = true.
Proof.
  intros HU HD. destruct (HU k) as (Fr & Hr). destruct (f_of_Z_exact 1) as (E1 & F1); [lia|].
  destruct (div_dim (rand k) dim Fr ltac:(rewrite Rabs_pos_eq; lra) HD) as (Ec & Fc).
  destruct (div_dim (f_of_Z 1) dim F1 ltac:(rewrite E1, Rabs_pos_eq; lra) HD) as (Eb & Fb).
  assert (D1 : 1 <= IZR dim) by (apply (IZR_le 1); lia).
  assert (Hinv : 0 < / IZR dim) by (apply Rinv_0_lt_compat; lra).
  unfold scaled. split; apply fle_fin; auto.
  - rewrite Ec. change (f2r fzero) with 0. rewrite <- rnd_0. apply rnd_le. unfold Rdiv. nra.
  - rewrite Ec, Eb. apply rnd_le. rewrite E1. unfold Rdiv. nra.
Qed.

Lemma scaled_zero rand k : is_fin (rand k) = true -> is_fin (scaled rand 0 k) = false.
Proof.
  intros H. unfold scaled. change (f_of_Z 0) with fzero. unfold fdiv, fzero. destruct (rand k) as [[]|[]| |[] m e He]; try discriminate; reflexivity.
Qed.

Lemma Forall_rows (P : f64 -> Prop) r c rows (value : nat -> f64) k : length rows = r -> all_len c rows ->
  (forall q j, (q < r)%nat -> (j < c)%nat -> nth j (nth q rows []) fzero = value (k + q * c + j)%nat) ->
  (forall n, P (value n)) -> Forall P (concat rows).
Proof.
  intros L A V HP. apply Forall_forall. intros x Hx. apply in_concat in Hx. destruct Hx as (row & Hr & Hx).
  destruct (In_nth _ _ [] Hr) as (q & Hq & <-). destruct (In_nth _ _ fzero Hx) as (j & Hj & <-).
  rewrite (all_len_nth c) in Hj by (auto; lia). rewrite V by lia. apply HP.
Qed.

Local Open Scope Z_scope.
Lemma mat_new_Forall (P : f64 -> Prop) value r c k k' m : 0 <= c -> (forall n, P (value n)) ->
  mat_new (Z.of_nat r) c (fill_row value) k = Ret (k', m) -> Forall P (m_array m).
Proof.
  intros Hc HP E. destruct (mat_new_fill value r (Z.to_nat c) k) as (rows & Em & L & A & V). rewrite Z2Nat.id in Em by assumption.
  rewrite Em in E. injection E as _ <-. cbn [m_array of_rows]. eapply Forall_rows; eauto.
Qed.

Lemma w2v_initial lower rand o doc c m samples md opt :
  unit_rand rand -> 1 <= w2v_Dim o <= 2 ^ 53 ->
  w2v_setup lower rand o doc = Ret (W2v c m samples md opt) ->
  let b := fdiv (f_dec 5 1) (f_of_Z (w2v_Dim o)) in
  Forall (fun x => fle (fopp b) x = true /\ fle x b = true) (m_array m) /\
  match opt with NS ctx _ => Forall (fun x => fle (fopp b) x = true /\ fle x b = true) (m_array ctx) | HS _ _ _ => True end.
Proof.
  intros HU HD E b. unfold w2v_setup in E. destruct (load_corpus _ _ _ _ _ _ _ _ _) as [c0| |]; try discriminate. cbn [obind] in E. cbv zeta in E.
  destruct (mat_new _ _ _ 0%nat) as [[k m0]| |] eqn:Em; try discriminate. cbn [obind] in E.
  destruct (subsample_new _ _) as [sm| |]; try discriminate. cbn [obind] in E.
  destruct (if String.eqb (w2v_ModelType o) skipgram_type then _ else _) as [md0| |]; try discriminate. cbn [obind] in E.
  apply mat_new_Forall with (P := fun x => fle (fopp b) x = true /\ fle x b = true) in Em;
    [|lia|intros n; apply centered_range; auto].
  destruct (String.eqb (w2v_OptimizerType o) ns_type).
  - destruct (mat_new _ _ _ k) as [[k2 ctx]| |] eqn:Ec; try discriminate. cbn [obind] in E.
    apply mat_new_Forall with (P := fun x => fle (fopp b) x = true /\ fle x b = true) in Ec; [|lia|intros n; apply centered_range; auto].
    apply (f_equal (fun r => match r with Ret s => (wv_param s, wv_opt s) | _ => (m, opt) end)) in E. cbn in E.
    inversion E; subst. auto.
  - destruct (String.eqb (w2v_OptimizerType o) hs_type); [|discriminate]. destruct (huffman_tree _ _) as [[h set]| |]; try discriminate. cbn [obind] in E.
    apply (f_equal (fun r => match r with Ret s => (wv_param s, wv_opt s) | _ => (m, opt) end)) in E. cbn in E.
    inversion E; subst. auto.
Qed.

Lemma lxv_initial lower rand flog fpow order o doc c m samples items :
  unit_rand rand -> 1 <= lex_Dim o <= 2 ^ 53 ->
  lxv_setup lower rand flog fpow order o doc = Ret (Lxv c m samples items) ->
  let b := fdiv (f_dec 5 1) (f_of_Z (lex_Dim o)) in
  Forall (fun x => fle (fopp b) x = true /\ fle x b = true) (m_array m).
Proof.
  intros HU HD E b. unfold lxv_setup in E. destruct (load_corpus _ _ _ _ _ _ _ _ _) as [c0| |]; try discriminate. cbn [obind] in E. cbv zeta in E.
  destruct (mat_new _ _ _ 0%nat) as [[k m0]| |] eqn:Em; try discriminate. cbn [obind] in E.
  destruct (subsample_new _ _) as [sm| |]; try discriminate. cbn [obind] in E.
  destruct (c_cooc c0) as [co|]; [|discriminate]. destruct (lex_make_items _ _ _ _ _ _ _ _ _); try discriminate. cbn [obind] in E.
  replace (Z.of_nat (dict_len (c_dic c0)) * 2) with (Z.of_nat (dict_len (c_dic c0) * 2)) in Em by lia.
  apply mat_new_Forall with (P := fun x => fle (fopp b) x = true /\ fle x b = true) in Em;
    [|lia|intros n; apply centered_range; auto].
  apply (f_equal (fun r => match r with Ret s => lx_param s | _ => m end)) in E. cbn in E. subst. auto.
Qed.

Lemma glv_initial_gen (P : f64 -> Prop) lower rand flog fpow order o doc d m sol items : 0 <= glv_Dim o ->
  (forall n, P (scaled rand (glv_Dim o) n)) ->
  glv_setup lower rand flog fpow order o doc = Ret (Glv d m sol items) -> Forall P (m_array m).
Proof.
  intros HD HP E. unfold glv_setup in E. destruct (load_corpus _ _ _ _ _ _ _ _ _) as [c0| |]; try discriminate. cbn [obind] in E. cbv zeta in E.
  destruct (mat_new _ _ _ 0%nat) as [[k m0]| |] eqn:Em; try discriminate. cbn [obind] in E.
  destruct (if String.eqb (glv_SolverType o) sgd_type then _ else _) as [s0| |]; try discriminate. cbn [obind] in E.
  destruct (c_cooc c0) as [co|]; [|discriminate]. destruct (make_items _ _ _ _ _ _ _); try discriminate. cbn [obind] in E.
  replace (Z.of_nat (dict_len (c_dic c0)) * 2) with (Z.of_nat (dict_len (c_dic c0) * 2)) in Em by lia.
  apply mat_new_Forall with (P := P) in Em; [|lia|exact HP].
  apply (f_equal (fun r => match r with Ret s => gl_param s | _ => m end)) in E. cbn in E. subst. auto.
Qed.

Lemma glv_initial lower rand flog fpow order o doc d m sol items :
  unit_rand rand -> 1 <= glv_Dim o <= 2 ^ 53 ->
  glv_setup lower rand flog fpow order o doc = Ret (Glv d m sol items) ->
  Forall (fun x => fle fzero x = true /\ fle x (fdiv (f_of_Z 1) (f_of_Z (glv_Dim o))) = true) (m_array m).
Proof. intros HU HD. apply glv_initial_gen; [lia|]. intros n. apply scaled_range; auto. Qed.

Lemma glv_initial0 lower rand flog fpow order o doc d m sol items :
  unit_rand rand -> glv_Dim o = 0 ->
  glv_setup lower rand flog fpow order o doc = Ret (Glv d m sol items) ->
  Forall (fun x => is_fin x = false) (m_array m).
Proof. intros HU HD. apply glv_initial_gen; [lia|]. intros n. rewrite HD. apply scaled_zero. apply HU. Qed.

(** ** The empty text *)
Lemma glv_empty lower rand flog fpow order o doc :
  readable (glv_Verbose o) (glv_LogBatch o) doc [] -> 0 <= glv_Dim o -> 1 <= glv_Window o ->
  glv_CountType o = "inc"%string -> In (glv_SolverType o) ["sgd"; "adagrad"]%string -> (forall m, Permutation (order m) m) ->
  exists d m sol items, glv_setup lower rand flog fpow order o doc = Ret (Glv d m sol items) /\
    dict_len d = 0%nat /\
    if glv_DocInMemory o then items = []
    else exists it, items = [it] /\ it_l1 it = 0 /\ it_l2 it = 0 /\
         glove_train_item (glv_Initlr o) (Z.of_nat (dict_len d)) it (m, sol) = Panic.
Proof.
  intros HR HD HW HC HS HP.
  destruct (glv_ready lower rand flog fpow order o doc [] HR HD (or_intror HW) HC HS) as (rows & sol & L & A & E).
  assert (LW : used_words lower (glv_ToLower o) [] = []) by (unfold used_words; destruct (glv_ToLower o); reflexivity).
  rewrite LW in L, E. cbn in L. destruct rows; [|discriminate].
  eexists. eexists. exists sol. eexists. split; [exact E|]. split; [reflexivity|].
  assert (O0 : forall x, order [x] = [x]). { intros x. apply Permutation_length_1_inv. symmetry. apply HP. }
  unfold fed_pairs. change (lowered lower (glv_ToLower o) []) with (used_words lower (glv_ToLower o) []). rewrite LW.
  destruct (glv_DocInMemory o).
  - cbn. assert (order [] = []) as ->. { apply Permutation_nil. symmetry. apply HP. } reflexivity.
  - cbn [fc_emitted]. set (n := Z.to_nat (glv_Window o)). assert (Hn : exists n', n = S n') by (exists (n - 1)%nat; lia). destruct Hn as (n' & Hn). rewrite Hn.
    assert (K : forall k v, exists v', fst (for_each (fun c p => co_add c (fst p) (snd p)) {| co_typ := increment; co_ma := [(encode_bigram 0 0, v)] |}
        (map (fun p : gostring * gostring => (Z.of_nat (raw_id [] (fst p)), Z.of_nat (raw_id [] (snd p)))) (repeat ([], []) k))) = {| co_typ := increment; co_ma := [(encode_bigram 0 0, v')] |}).
    { induction k as [|k IH]; intros v; [eexists; reflexivity|]. cbn [repeat map for_each fst snd].
      change (Z.of_nat (raw_id [] [])) with 0. unfold co_add at 1. cbv zeta. cbn [co_typ co_ma]. change (String.eqb increment increment) with true. cbv iota.
      change (encode_bigram (wrap64 0) (wrap64 0)) with (encode_bigram 0 0). cbn [mget mset]. destruct (Z.eq_dec (encode_bigram 0 0) (encode_bigram 0 0)); [|congruence]. apply IH. }
    assert (K1 : exists v', fst (for_each (fun c p => co_add c (fst p) (snd p)) {| co_typ := increment; co_ma := [] |}
        (map (fun p : gostring * gostring => (Z.of_nat (raw_id [] (fst p)), Z.of_nat (raw_id [] (snd p)))) (repeat ([], []) (S n')))) = {| co_typ := increment; co_ma := [(encode_bigram 0 0, v')] |}).
    { destruct (K n' (fadd fzero (f_of_Z 1))) as (v' & Hv'). exists v'. rewrite <- Hv'. cbn [repeat map for_each fst snd].
      change (Z.of_nat (raw_id [] [])) with 0. unfold co_add at 1. cbv zeta. cbn [co_typ co_ma]. change (String.eqb increment increment) with true. cbv iota.
      change (encode_bigram (wrap64 0) (wrap64 0)) with (encode_bigram 0 0). cbn [mget mset]. reflexivity. }
    destruct K1 as (v' & ->). cbn [co_ma]. rewrite O0. cbn [map].
    eexists. split; [reflexivity|]. 
    assert (MI : exists x w, make_item flog fpow (glv_Xmax o) (glv_Alpha o) (encode_bigram 0 0, v') = Item 0 0 x w).
    { eexists. eexists. reflexivity. }
    destruct MI as (x & w & ->). cbn [it_l1 it_l2 it_f it_coef]. split; [reflexivity|]. split; [reflexivity|].
    unfold glove_train_item. cbn [it_l1 it_l2 it_f it_coef].
    assert (SL : forall l, mat_slice (of_rows (S (Z.to_nat (glv_Dim o))) []) (0 + l) = Panic \/ l <> 0).
    { intros l. destruct (Z.eq_dec l 0) as [->|]; [left|auto]. unfold mat_slice, slice_ok, start_index, of_rows. cbn [m_array m_col m_row concat length].
      destruct (Z.leb_spec (0 * Z.of_nat (S (Z.to_nat (glv_Dim o))) + Z.of_nat (S (Z.to_nat (glv_Dim o)))) (Z.of_nat 0)); [lia|]. cbn [Z.add]. rewrite andb_false_r. reflexivity. }
    destruct (SL 0) as [S0|]; [|congruence]. cbn [Z.add] in S0.
    unfold solver_train_one. cbn [fst snd].
    destruct sol; [unfold sgd_train_one|unfold ada_train_one; cbn [fst snd]]; rewrite S0; reflexivity.
Qed.
