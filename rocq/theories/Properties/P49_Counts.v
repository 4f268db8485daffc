(** * C113: what co-occurrence counts add up to, and how they depend on the text and the window

    [lower] is strings.ToLower, any function; [doc] is the input and [all] its words; the corpus is fresh; type inc. [count_of] and [total]
    (Spec/Counts.v) read the matrix by words. *)
From Coq Require Import Reals Lia Permutation.
From Verif.Lib Require Import Go F64 F64Facts.
From Verif.Spec Require Import Words Tokens Lines Window Pairs Counts.
From Verif.Model Require Import Dictionary Encode Cooc Reader Corpus.
From Verif.Proofs Require Counts Embedding.
Local Open Scope nat_scope.

(** The words as the corpus uses them. *)
Definition lowered (lower : gostring -> gostring) (lc : bool) (all : list gostring) : list gostring :=
  if lc then map lower all else all.

(** A text that Load accepts and that has at most 2^32 different words. *)
Definition text (lower : gostring -> gostring) (lc : bool) (doc : reader) (all : list gostring) : Prop :=
  tokens (rd_data doc) all /\ rd_err doc = false /\ Forall (fun w => (Z.of_nat (length w) <= 65533)%Z) all /\
  (Z.of_nat (length (distinct (lowered lower lc all))) <= 2 ^ 32)%Z.

(** The option Window, with count type inc. *)
Definition window (win : Z) : option with_cooc := Some {| w_type := "inc"; w_window := win |}.

(** The number of pairs of positions at most [win] apart in a text of [n] words: (n-1) + (n-2) + ... + (n-win). *)
Definition pairs_within (win : Z) (n : nat) : nat := fold_right Nat.add 0 (map (fun d => n - d) (seq 1 (Z.to_nat win))).

Section C113.
Variables (lower : gostring -> gostring) (verbose : bool) (lb : Z) (lc : bool) (maxc minc : Z).
Hypothesis Hr : verbose = false \/ lb <> 0%Z.

(** C113. The counts of an in-memory corpus add up to the number of pairs of positions in the window. *)
Theorem C113_total : forall doc all win, text lower lc doc all -> (Z.of_nat (pairs_within win (length all)) <= 2 ^ 53)%Z ->
  exists c, mem_load lower verbose lb (corpus_new doc lc maxc minc) (window win) = (c, Ret tt) /\
    total c = INR (pairs_within win (length all)).
Proof.
  intros doc all win (Ht & He & Hf & Hv). unfold pairs_within. rewrite <- Counts.window_length. intros H.
  now apply (Counts.mem_total_lemma lower verbose lb Hr).
Qed.

(** C113. A file-backed corpus counts exactly (n-1)(n-2)/2 pairs less for window n, on every text longer than the window, also with
    ToLower. *)
Theorem C113_file_total : forall doc all n, text lower lc doc all -> 1 <= n < length all ->
  (Z.of_nat (pairs_within (Z.of_nat n) (length all)) <= 2 ^ 53)%Z ->
  exists c c', mem_load lower verbose lb (corpus_new doc lc maxc minc) (window (Z.of_nat n)) = (c, Ret tt) /\
    fs_load lower verbose lb (corpus_new doc lc maxc minc) (window (Z.of_nat n)) = (c', Ret tt) /\
    (2 * total c = 2 * total c' + INR ((n - 1) * (n - 2)))%R.
Proof.
  intros doc all n (Ht & He & Hf & Hv) Hn. unfold pairs_within. rewrite <- Counts.window_length. intros H.
  destruct (Counts.mem_total_lemma lower verbose lb Hr doc lc maxc minc all (Z.of_nat n) Ht He Hf Hv H) as (c & E & T).
  pose proof (Counts.lost_pairs n all Hn) as L. rewrite Nat2Z.id in *.
  destruct (Counts.file_total_lemma lower verbose lb Hr doc lc maxc minc all n Ht He Hf Hn Hv ltac:(nia)) as (c' & E' & T').
  exists c, c'. split; [exact E|]. split; [exact E'|]. rewrite T, T'.
  change 2%R with (INR 2). rewrite <- !mult_INR, <- plus_INR. f_equal. exact L.
Qed.

(** C113. If the window covers the whole text, two different words are counted once for each occurrence of the one and each of the
    other, and a word with itself f(f-1)/2 times. *)
Theorem C113_whole_text : forall doc all win, text lower lc doc all -> (Z.of_nat (length all) <= win + 1)%Z ->
  (Z.of_nat (length all * length all) <= 2 ^ 53)%Z ->
  let lw := lowered lower lc all in
  exists c, mem_load lower verbose lb (corpus_new doc lc maxc minc) (window win) = (c, Ret tt) /\
    (forall a b, In a lw -> In b lw -> a <> b -> count_of c a b = INR (occurrences a lw * occurrences b lw)) /\
    (forall a, In a lw -> (2 * count_of c a a = INR (occurrences a lw * (occurrences a lw - 1)))%R).
Proof.
  intros doc all win (Ht & He & Hf & Hv) Hw H53 lw.
  destruct (Counts.cells_lemma lower verbose lb Hr doc lc maxc minc all win Ht He Hf Hv) as (c & E & C).
  exists c. split; [exact E|].
  assert (EL : length lw = length all) by (unfold lw, lowered; destruct lc; [now rewrite map_length|reflexivity]).
  assert (O : forall x, count_occ gostring_eq_dec lw x <= length all).
  { intros x. rewrite <- EL. clear. induction lw as [|y l IH]; cbn [count_occ length]; [lia|]. destruct (gostring_eq_dec y x); lia. }
  split; intros a; [intros b Ha Hb N|intros Ha].
  - rewrite (C a b Ha Hb). change (Proofs.Corpus.lowered lower lc all) with lw.
    rewrite Counts.whole_count by (auto; lia). unfold occurrences. pose proof (O a). pose proof (O b).
    rewrite Z.min_l by nia. now rewrite <- INR_IZR_INZ.
  - rewrite (C a a Ha Ha). change (Proofs.Corpus.lowered lower lc all) with lw.
    pose proof (Counts.whole_count_same gostring_eq_dec a (Z.to_nat win) lw ltac:(lia)) as W. pose proof (O a). cbv beta in W.
    rewrite Z.min_l by nia. rewrite <- INR_IZR_INZ. change 2%R with (INR 2). rewrite <- mult_INR. f_equal. exact W.
Qed.

(** C113. Reading the text backwards gives the same counts (the ids may differ). *)
Theorem C113_backwards : forall doc doc' all win, text lower lc doc all -> text lower lc doc' (rev all) ->
  exists c c', mem_load lower verbose lb (corpus_new doc lc maxc minc) (window win) = (c, Ret tt) /\
    mem_load lower verbose lb (corpus_new doc' lc maxc minc) (window win) = (c', Ret tt) /\
    forall a b, In a (lowered lower lc all) -> In b (lowered lower lc all) -> count_of c a b = count_of c' a b.
Proof.
  intros doc doc' all win (Ht & He & Hf & Hv) (Ht' & He' & Hf' & Hv').
  destruct (Counts.cells_lemma lower verbose lb Hr doc lc maxc minc all win Ht He Hf Hv) as (c & E & C).
  destruct (Counts.cells_lemma lower verbose lb Hr doc' lc maxc minc (rev all) win Ht' He' Hf' Hv') as (c' & E' & C').
  exists c, c'. split; [exact E|]. split; [exact E'|]. intros a b Ha Hb.
  change (Proofs.Corpus.lowered lower lc all) with (lowered lower lc all) in C.
  assert (R : Proofs.Corpus.lowered lower lc (rev all) = rev (lowered lower lc all)).
  { unfold Proofs.Corpus.lowered, lowered. destruct lc; [apply map_rev|reflexivity]. }
  rewrite R in C'. rewrite (C a b Ha Hb), (C' a b), Counts.window_reverse; [reflexivity| |]; rewrite <- in_rev; assumption.
Qed.

(** C113. A larger window never lowers a count, and no count exceeds 2 * window times the frequency of one of its words (window times
    the frequency for a word with itself). *)
Theorem C113_window : forall doc all win win', text lower lc doc all -> (win <= win')%Z ->
  let lw := lowered lower lc all in
  exists c c', mem_load lower verbose lb (corpus_new doc lc maxc minc) (window win) = (c, Ret tt) /\
    mem_load lower verbose lb (corpus_new doc lc maxc minc) (window win') = (c', Ret tt) /\
    (forall a b, In a lw -> In b lw -> (count_of c a b <= count_of c' a b)%R) /\
    (forall a b, In a lw -> In b lw -> a <> b -> (count_of c a b <= INR (2 * Z.to_nat win * occurrences a lw))%R) /\
    (forall a, In a lw -> (count_of c a a <= INR (Z.to_nat win * occurrences a lw))%R).
Proof.
  intros doc all win win' (Ht & He & Hf & Hv) Hw lw.
  destruct (Counts.cells_lemma lower verbose lb Hr doc lc maxc minc all win Ht He Hf Hv) as (c & E & C).
  destruct (Counts.cells_lemma lower verbose lb Hr doc lc maxc minc all win' Ht He Hf Hv) as (c' & E' & C').
  change (Proofs.Corpus.lowered lower lc all) with lw in C, C'.
  exists c, c'. split; [exact E|]. split; [exact E'|]. split; [|split].
  - intros a b Ha Hb. rewrite (C a b Ha Hb), (C' a b Ha Hb). apply IZR_le.
    pose proof (Counts.window_mono gostring_eq_dec a b (Z.to_nat win) (Z.to_nat win') lw ltac:(lia)). lia.
  - intros a b Ha Hb N. rewrite (C a b Ha Hb), INR_IZR_INZ. apply IZR_le.
    pose proof (Counts.window_bound gostring_eq_dec a b (Z.to_nat win) lw N) as B. unfold occurrences. cbv beta in B. lia.
  - intros a Ha. rewrite (C a a Ha Ha), INR_IZR_INZ. apply IZR_le.
    pose proof (Counts.window_bound_same gostring_eq_dec a (Z.to_nat win) lw) as B. unfold occurrences. cbv beta in B. lia.
Qed.

(** C113. Counts are symmetric in the two words and whole numbers. *)
Theorem C113_symmetric : forall doc all win, text lower lc doc all ->
  exists c, mem_load lower verbose lb (corpus_new doc lc maxc minc) (window win) = (c, Ret tt) /\
    forall a b, In a (lowered lower lc all) -> In b (lowered lower lc all) ->
      count_of c a b = count_of c b a /\ exists n, count_of c a b = INR n.
Proof.
  intros doc all win (Ht & He & Hf & Hv).
  destruct (Counts.cells_lemma lower verbose lb Hr doc lc maxc minc all win Ht He Hf Hv) as (c & E & C).
  change (Proofs.Corpus.lowered lower lc all) with (lowered lower lc all) in C.
  exists c. split; [exact E|]. intros a b Ha Hb. rewrite (C a b Ha Hb), (C b a Hb Ha). split.
  - do 3 f_equal. unfold pair_count. f_equal. apply filter_ext. intros [x y]. unfold same_pair.
    repeat destruct (gostring_eq_dec _ _); reflexivity.
  - exists (Z.to_nat (Z.min (Z.of_nat (pair_count gostring_eq_dec a b (window_pairs (Z.to_nat win) (lowered lower lc all)))) (2 ^ 53))).
    rewrite INR_IZR_INZ, Z2Nat.id; [reflexivity|lia].
Qed.

(** C113. Appending text never lowers a count: what the two parts alone would give is a lower bound. *)
Theorem C113_append : forall doc doc1 doc2 all1 all2 win, text lower lc doc1 all1 -> text lower lc doc2 all2 -> text lower lc doc (all1 ++ all2) ->
  exists c1 c2 c, mem_load lower verbose lb (corpus_new doc1 lc maxc minc) (window win) = (c1, Ret tt) /\
    mem_load lower verbose lb (corpus_new doc2 lc maxc minc) (window win) = (c2, Ret tt) /\
    mem_load lower verbose lb (corpus_new doc lc maxc minc) (window win) = (c, Ret tt) /\
    forall a b, In a (lowered lower lc all1) -> In b (lowered lower lc all1) ->
      (count_of c1 a b <= count_of c a b)%R /\
      (In a (lowered lower lc all2) -> In b (lowered lower lc all2) -> (count_of c a b < IZR (2 ^ 53))%R ->
       (count_of c1 a b + count_of c2 a b <= count_of c a b)%R).
Proof.
  intros doc doc1 doc2 all1 all2 win (Ht1 & He1 & Hf1 & Hv1) (Ht2 & He2 & Hf2 & Hv2) (Ht & He & Hf & Hv).
  destruct (Counts.cells_lemma lower verbose lb Hr doc1 lc maxc minc all1 win Ht1 He1 Hf1 Hv1) as (c1 & E1 & C1).
  destruct (Counts.cells_lemma lower verbose lb Hr doc2 lc maxc minc all2 win Ht2 He2 Hf2 Hv2) as (c2 & E2 & C2).
  destruct (Counts.cells_lemma lower verbose lb Hr doc lc maxc minc (all1 ++ all2) win Ht He Hf Hv) as (c & E & C).
  change (Proofs.Corpus.lowered lower lc all1) with (lowered lower lc all1) in C1.
  change (Proofs.Corpus.lowered lower lc all2) with (lowered lower lc all2) in C2.
  assert (R : Proofs.Corpus.lowered lower lc (all1 ++ all2) = lowered lower lc all1 ++ lowered lower lc all2).
  { unfold Proofs.Corpus.lowered, lowered. destruct lc; [apply map_app|reflexivity]. }
  rewrite R in C. exists c1, c2, c. do 3 (split; [assumption|]). intros a b Ha Hb.
  specialize (C a b ltac:(apply in_or_app; auto) ltac:(apply in_or_app; auto)). specialize (C1 a b Ha Hb).
  pose proof (Counts.window_append gostring_eq_dec a b (Z.to_nat win) (lowered lower lc all1) (lowered lower lc all2)) as W.
  split.
  - rewrite C, C1. apply IZR_le. lia.
  - intros Ha2 Hb2 H. specialize (C2 a b Ha2 Hb2). rewrite C in H. apply lt_IZR in H. rewrite C, C1, C2, <- plus_IZR. apply IZR_le. lia.
Qed.
End C113.
Print Assumptions C113_total.
Print Assumptions C113_file_total.
Print Assumptions C113_whole_text.
Print Assumptions C113_backwards.
Print Assumptions C113_window.
Print Assumptions C113_symmetric.
Print Assumptions C113_append.

(** The texts "a b a c" and "c a b a" meet the hypotheses; with window 2 the first has 3 + 2 pairs. *)
Example C113_case : text (fun w => w) false (file_of (bs "a b a c")) [bs "a"; bs "b"; bs "a"; bs "c"] /\
  text (fun w => w) false (file_of (bs "c a b a")) (rev [bs "a"; bs "b"; bs "a"; bs "c"]) /\ pairs_within 2 4 = 5.
Proof.
  assert (F : forall all, forallb (fun w => Z.of_nat (length w) <=? 65533)%Z all = true -> Forall (fun w : gostring => (Z.of_nat (length w) <= 65533)%Z) all).
  { intros all H. apply Forall_forall. intros w Hw. rewrite forallb_forall in H. apply H in Hw. lia. }
  split; [|split; [|reflexivity]].
  - split; [exact (Embedding.fields_spec 50 (bs "a b a c") ltac:(cbn; lia))|].
    split; [reflexivity|]. split; [apply F; reflexivity|vm_compute; discriminate].
  - split; [exact (Embedding.fields_spec 50 (bs "c a b a") ltac:(cbn; lia))|].
    split; [reflexivity|]. split; [apply F; reflexivity|vm_compute; discriminate].
Qed.
