(** * What the workers of a run get: slices of the filtered text, and parameters of the right shape *)
From Coq Require Import Lia Permutation.
From Verif.Lib Require Import Go F64 ListFacts Tac.
From Verif.Spec Require Import Words Tokens Window Filter Slices Rows Readable Reach.
From Verif.Model Require Import Dictionary Encode Cooc Reader Corpus ModelUtil Matrix Subsample Huffman Sigmoid Word2vec Glove Lexvec
  Options Train Sched Run.
From Verif.Proofs Require Import Dictionary Cooc Corpus ModelUtil Items LexItems AdaGrad Train TrainProps Sched SchedRun.
From Verif.Proofs Require Run.
Local Open Scope Z_scope.

Lemma load_corpus_fst lower mem lc maxc minc verbose lb w doc c :
  load_corpus lower mem lc maxc minc verbose lb w doc = Ret c ->
  c = fst ((if mem then mem_load lower verbose lb else fs_load lower verbose lb) (corpus_new doc lc maxc minc) w).
Proof.
  unfold load_corpus. destruct ((if mem then mem_load _ _ _ else fs_load _ _ _) _ _) as [c0 r]. destruct r; cbn [obind fst]; intros; congruence.
Qed.

Lemma filter_len_le {A} (f : A -> bool) : forall l, (length (filter f l) <= length l)%nat.
Proof. induction l as [|a l IH]; cbn [filter length]; [lia|]. destruct (f a); cbn [length]; lia. Qed.

Section Source.
Variables (lower : gostring -> gostring) (mem lc : bool) (maxc minc : Z) (verbose : bool) (lb : Z) (wc : option with_cooc) (doc : reader)
  (all : list gostring) (c : corpus).
Hypothesis HR : readable verbose lb doc all.
Hypothesis HL : load_corpus lower mem lc maxc minc verbose lb wc doc = Ret c.
Let lw := lowered lower lc all.

Lemma loaded_facts : c_dic c = dict_add dict_new lw /\ c_len c = length all.
Proof.
  destruct HR as (Hv & HT & HE & HF). pose proof (load_lemma lower verbose lb doc lc maxc minc all wc Hv HT HE HF) as H.
  apply load_corpus_fst in HL. cbv zeta in H.
  destruct (mem_load _ _ _ _ wc) as [cm om] eqn:Em, (fs_load _ _ _ _ wc) as [cf of] eqn:Ef.
  destruct mem; rewrite ?Em, ?Ef in HL; cbn [fst] in HL; subst c; tauto.
Qed.

(** The words that survive the filters, as ids. *)
Definition kept_doc : list nat := map (fun x => fst (dict_id (c_dic c) x)) (kept_words maxc minc lw).

Lemma mem_idoc : exists ids, mem_indexed_doc (fst (mem_load lower verbose lb (corpus_new doc lc maxc minc) wc)) = Ret ids /\
  ids = kept_doc /\ Forall (fun id => (id < dict_len (c_dic c))%nat) ids.
Proof.
  destruct HR as (Hv & HT & HE & HF).
  destruct (indexed_doc_lemma lower verbose lb doc lc maxc minc all wc Hv HT HE HF) as (ids & E1 & E2 & E3).
  destruct loaded_facts as (D & _). pose proof (load_lemma lower verbose lb doc lc maxc minc all wc Hv HT HE HF) as H. cbv zeta in H.
  destruct (mem_load _ _ _ _ wc) as [cm om], (fs_load _ _ _ _ wc) as [cf of]. cbn [fst] in *. destruct H as (_ & Hd & _).
  exists ids. rewrite Hd in *. split; [exact E1|]. unfold kept_doc. rewrite D. split; [exact E2|]. eapply Forall_impl; [|exact E3]. cbn. tauto.
Qed.

Lemma kept_doc_lt : Forall (fun id => (id < dict_len (c_dic c))%nat) kept_doc.
Proof. destruct mem_idoc as (ids & _ & -> & H). exact H. Qed.

Lemma kept_words_le ws : (length (kept_words maxc minc ws) <= length ws)%nat.
Proof. apply filter_len_le. Qed.

Lemma kept_doc_len : (length kept_doc <= length all)%nat.
Proof.
  unfold kept_doc. rewrite map_length. etransitivity; [apply kept_words_le|]. unfold lw, lowered. destruct lc; [rewrite map_length|]; lia.
Qed.

Variables (G bs : Z).
Hypothesis HG : if mem then 1 <= G /\ Z.of_nat (length all) + G <= 2 ^ 53 else 1 <= bs.

(** The document reaches the workers in slices: nothing lost, nothing repeated. *)
Lemma source_ok : exists x, doc_source lower mem G bs c = Ret x /\ Run.src_ok x /\ concat (pending x) = kept_doc /\
  (mem = true -> length (pending x) = Z.to_nat G).
Proof.
  unfold doc_source. pose proof (load_corpus_fst _ _ _ _ _ _ _ _ _ _ HL) as Hc. pose proof mem_idoc as (ids & E1 & E2 & E3).
  pose proof kept_doc_len as Hlen.
  destruct mem.
  - rewrite Hc. rewrite E1. cbn [obind]. rewrite <- E2 in Hlen. destruct HG as (HG1 & HG2).
    destruct (index_per_thread_lemma G (Z.of_nat (length ids)) HG1 ltac:(lia) ltac:(lia)) as (bounds & E & _ & _ & _ & _ & HS).
    rewrite E. cbn [obind]. destruct (HS _ ids eq_refl) as (L & C). eexists. split; [reflexivity|].
    split; [split; [discriminate|exact I]|]. cbn [pending]. split; [congruence|auto].
  - destruct HR as (Hv & HT & HE & HF).
    destruct (batch_words_lemma lower verbose lb doc lc maxc minc all wc (rd_pos doc) (Z.to_nat bs) Hv HT HE HF ltac:(lia)) as (full & last & ids' & E & _ & _ & E4 & E5).
    assert (ED : {| rd_data := rd_data doc; rd_pos := rd_pos doc; rd_err := false |} = doc) by (destruct doc; cbn in HE |- *; congruence).
    rewrite ED, Z2Nat.id in E by lia. rewrite E1 in E4. injection E4 as <-.
    assert (EC : c_doc c = doc).
    { rewrite Hc. destruct (fs_load_state lower verbose lb doc lc maxc minc all wc (report_ok _ _ Hv) HT HE HF) as (o & -> & _). reflexivity. }
    rewrite EC. rewrite <- Hc in E. rewrite E.
    eexists. split; [reflexivity|]. split; [split; [discriminate|exact I]|]. split; [cbn [pending batch_source app]; congruence|discriminate].
Qed.

Lemma source_lt x : doc_source lower mem G bs c = Ret x -> Run.src_ok x /\ concat (pending x) = kept_doc /\
  Forall (fun d => Forall (fun id => (id < dict_len (c_dic c))%nat) d) (pending x) /\ (mem = true -> length (pending x) = Z.to_nat G).
Proof.
  destruct source_ok as (x' & E & H1 & H2 & H3). rewrite E. intros Ex. injection Ex as <-. split; [exact H1|]. split; [exact H2|]. split; [|exact H3].
  pose proof kept_doc_lt as H. rewrite <- H2 in H. rewrite Forall_concat in H. exact H.
Qed.

(** A file-backed text shorter than the batch size arrives in one batch. *)
Lemma source_one x : mem = false -> Z.of_nat (length all) < bs -> doc_source lower mem G bs c = Ret x -> length (pending x) = 1%nat.
Proof.
  intros Em Hb. unfold doc_source. pose proof (load_corpus_fst _ _ _ _ _ _ _ _ _ _ HL) as Hc. pose proof mem_idoc as (ids & E1 & E2 & E3).
  pose proof kept_doc_len as Hlen. rewrite Em in *. destruct HR as (Hv & HT & HE & HF).
  destruct (batch_words_lemma lower verbose lb doc lc maxc minc all wc (rd_pos doc) (Z.to_nat bs) Hv HT HE HF ltac:(lia)) as (full & last & ids' & E & F & _ & E4 & E5).
  assert (ED : {| rd_data := rd_data doc; rd_pos := rd_pos doc; rd_err := false |} = doc) by (destruct doc; cbn in HE |- *; congruence).
  rewrite ED, Z2Nat.id in E by lia. rewrite E1 in E4. injection E4 as <-.
  assert (EC : c_doc c = doc).
  { rewrite Hc. destruct (fs_load_state lower verbose lb doc lc maxc minc all wc (report_ok _ _ Hv) HT HE HF) as (o & -> & _). reflexivity. }
  rewrite EC. rewrite <- Hc in E. rewrite E. intros Ex. injection Ex as <-. cbn [pending batch_source app].
  destruct full as [|b full]; [reflexivity|exfalso]. apply Forall_inv in F.
  assert (length (concat ((b :: full) ++ [last])) = length kept_doc) as L by congruence.
  cbn [app concat] in L. rewrite app_length in L. lia.
Qed.
End Source.

(** ** set-up *)
Section Setup.
Variables (lower : gostring -> gostring) (rand : nat -> f64) (doc : reader) (all : list gostring).

Lemma w2v_setup_corpus o w0 : w2v_setup lower rand o doc = Ret w0 ->
  load_corpus lower (w2v_DocInMemory o) (w2v_ToLower o) (w2v_MaxCount o) (w2v_MinCount o) (w2v_Verbose o) (w2v_LogBatch o) None doc = Ret (wv_corpus w0).
Proof.
  unfold w2v_setup. destruct (load_corpus _ _ _ _ _ _ _ _ _) as [c| |]; cbn [obind]; try discriminate. cbv zeta.
  destruct (mat_new _ _ _ _) as [[k p]| |]; cbn [obind]; try discriminate.
  destruct (subsample_new _ _) as [sm| |]; cbn [obind]; try discriminate.
  match goal with |- obind ?m _ = _ -> _ => destruct m as [md| |]; cbn [obind]; try discriminate end.
  match goal with |- obind ?m _ = _ -> _ => destruct m as [op| |]; cbn [obind]; try discriminate end.
  intros E. injection E as <-. reflexivity.
Qed.

Lemma lxv_setup_corpus flog fpow order o l0 : lxv_setup lower rand flog fpow order o doc = Ret l0 ->
  load_corpus lower (lex_DocInMemory o) (lex_ToLower o) (lex_MaxCount o) (lex_MinCount o) (lex_Verbose o) (lex_BatchSize o)
    (Some {| w_type := increment; w_window := lex_Window o |}) doc = Ret (lx_corpus l0).
Proof.
  unfold lxv_setup. destruct (load_corpus _ _ _ _ _ _ _ _ _) as [c| |]; cbn [obind]; try discriminate. cbv zeta.
  destruct (mat_new _ _ _ _) as [[k p]| |]; cbn [obind]; try discriminate.
  destruct (subsample_new _ _) as [sm| |]; cbn [obind]; try discriminate.
  destruct (c_cooc c); [|discriminate]. destruct (lex_make_items _ _ _ _ _ _ _ _ _) as [it| |]; cbn [obind]; try discriminate.
  intros E. injection E as <-. reflexivity.
Qed.
End Setup.
