(** * C10-C16, C69: the in-memory and the file-backed corpus

    [lower] is strings.ToLower, any function; [doc] is the input; the corpus is fresh. *)
From Coq Require Import Reals.
From Verif.Lib Require Import Go F64 F64Facts.
From Verif.Spec Require Import Words Tokens Window Pairs Filter.
From Verif.Model Require Import Dictionary Encode Cooc Reader Corpus.
From Verif.Proofs Require Corpus.
Local Open Scope nat_scope.

(** The words as the corpus uses them. *)
Definition lowered (lower : gostring -> gostring) (lc : bool) (all : list gostring) : list gostring :=
  if lc then map lower all else all.
(** Every word fits the scanner's buffer. *)
Definition fits (all : list gostring) : Prop := Forall (fun w => (Z.of_nat (length w) <= 65533)%Z) all.

(** C10. In-memory, type inc: the cell of two words of the text is the number of positions
    i < j <= i + window holding them in either order (exact up to 2^53), and there are no other cells. *)
Theorem C10_memory_cooccurrence : forall lower verbose log_batch doc lc maxc minc all win,
  verbose = false \/ log_batch <> 0%Z -> tokens (rd_data doc) all -> rd_err doc = false -> fits all ->
  let lw := lowered lower lc all in
  (Z.of_nat (length (distinct lw)) <= 2 ^ 32)%Z ->
  exists c co, mem_load lower verbose log_batch (corpus_new doc lc maxc minc)
                 (Some {| w_type := "inc"; w_window := win |}) = (c, Ret tt) /\
    c_cooc c = Some co /\
    (forall w1 w2, In w1 lw -> In w2 lw ->
       let key := encode_bigram (Z.of_nat (fst (dict_id (c_dic c) w1))) (Z.of_nat (fst (dict_id (c_dic c) w2))) in
       match pair_count gostring_eq_dec w1 w2 (window_pairs (Z.to_nat win) lw) with
       | O => mget Z.eq_dec key (co_ma co) = None
       | n => exists v, mget Z.eq_dec key (co_ma co) = Some v /\
                        is_fin v = true /\ f2r v = IZR (Z.min (Z.of_nat n) (2 ^ 53))
       end) /\
    (forall k v, In (k, v) (co_ma co) -> exists w1 w2, In (w1, w2) (window_pairs (Z.to_nat win) lw) /\
       k = encode_bigram (Z.of_nat (fst (dict_id (c_dic c) w1))) (Z.of_nat (fst (dict_id (c_dic c) w2)))) /\
    NoDup (map fst (co_ma co)).
Proof. exact Corpus.mem_cooc_lemma. Qed.
Print Assumptions C10_memory_cooccurrence.

Definition doc_of (s : string) : reader := {| rd_data := bs s; rd_pos := 0; rd_err := false |}.
Definition show_cooc (c : corpus) : list ((Z * Z) * option (Z * Z)) :=
  match c_cooc c with
  | Some co => map (fun kv => (decode_bigram (fst kv), fshow (snd kv))) (co_ma co)
  | None => []
  end.

Example C10_case :
  show_cooc (fst (mem_load (fun w => w) false 0 (corpus_new (doc_of "a b a c") false 0 0)
                 (Some {| w_type := "inc"; w_window := 2 |}))) =
  [((0, 1), Some (2 ^ 52, -51)); ((0, 0), Some (2 ^ 52, -52)); ((1, 2), Some (2 ^ 52, -52)); ((0, 2), Some (2 ^ 52, -52))]%Z.
Proof. vm_compute. reflexivity. Qed.

(** C11. The file-backed corpus gives the same matrix, dictionary, length and outcome, for both count
    types, when the window is 1 or 2, the text is longer than the window and words are not lower-cased. *)
Theorem C11_file_agrees : forall lower verbose log_batch doc maxc minc all typ n co0,
  verbose = false \/ log_batch <> 0%Z -> tokens (rd_data doc) all -> rd_err doc = false -> fits all ->
  co_new typ = Ret co0 -> 1 <= n <= 2 -> n < length all ->
  let w := Some {| w_type := typ; w_window := Z.of_nat n |} in
  let (cf, of) := fs_load lower verbose log_batch (corpus_new doc false maxc minc) w in
  let (cm, om) := mem_load lower verbose log_batch (corpus_new doc false maxc minc) w in
  c_cooc cf = c_cooc cm /\ of = om /\ c_dic cf = c_dic cm /\ c_len cf = c_len cm.
Proof. exact Corpus.fs_agrees_lemma. Qed.
Print Assumptions C11_file_agrees.

(** C11. For every longer window the two differ: on any text longer than the window the last two words
    are counted strictly less often by the file-backed corpus. *)
Theorem C11_file_loses_pairs : forall lower verbose log_batch doc maxc minc pre x y n,
  let all := pre ++ [x; y] in
  verbose = false \/ log_batch <> 0%Z -> tokens (rd_data doc) all -> rd_err doc = false -> fits all ->
  3 <= n < length all -> (Z.of_nat (length (distinct all)) <= 2 ^ 32)%Z ->
  (Z.of_nat (pair_count gostring_eq_dec x y (window_pairs n all)) <= 2 ^ 53)%Z ->
  let w := Some {| w_type := "inc"; w_window := Z.of_nat n |} in
  exists cf cof cm com v,
    fs_load lower verbose log_batch (corpus_new doc false maxc minc) w = (cf, Ret tt) /\ c_cooc cf = Some cof /\
    mem_load lower verbose log_batch (corpus_new doc false maxc minc) w = (cm, Ret tt) /\ c_cooc cm = Some com /\
    let key := encode_bigram (Z.of_nat (fst (dict_id (c_dic cm) x))) (Z.of_nat (fst (dict_id (c_dic cm) y))) in
    mget Z.eq_dec key (co_ma com) = Some v /\
    (mget Z.eq_dec key (co_ma cof) = None \/
     exists v', mget Z.eq_dec key (co_ma cof) = Some v' /\ (f2r v' < f2r v)%R).
Proof. exact Corpus.fs_loses_lemma. Qed.
Print Assumptions C11_file_loses_pairs.

(** C11. What the file-backed corpus counts on a text longer than the window: the window pairs of the
    first L - n + 1 positions. *)
Theorem C11_file_counts : forall lower verbose log_batch doc maxc minc all n,
  verbose = false \/ log_batch <> 0%Z -> tokens (rd_data doc) all -> rd_err doc = false -> fits all ->
  1 <= n < length all -> (Z.of_nat (length (distinct all)) <= 2 ^ 32)%Z ->
  exists c co, fs_load lower verbose log_batch (corpus_new doc false maxc minc)
                 (Some {| w_type := "inc"; w_window := Z.of_nat n |}) = (c, Ret tt) /\
    c_cooc c = Some co /\
    (forall w1 w2, In w1 all -> In w2 all ->
       let key := encode_bigram (Z.of_nat (fst (dict_id (c_dic c) w1))) (Z.of_nat (fst (dict_id (c_dic c) w2))) in
       match pair_count gostring_eq_dec w1 w2 (window_pairs_upto (length all - n + 1) n all) with
       | O => mget Z.eq_dec key (co_ma co) = None
       | n => exists v, mget Z.eq_dec key (co_ma co) = Some v /\
                        is_fin v = true /\ f2r v = IZR (Z.min (Z.of_nat n) (2 ^ 53))
       end).
Proof. exact Corpus.fs_cooc_lemma. Qed.
Print Assumptions C11_file_counts.

(** C11. On texts no longer than the window, and with lower-casing, the two corpora disagree already on
    small texts: a lone word co-occurs with itself, and an upper-case word counts as word 0. *)
Definition ascii_lower (w : gostring) : gostring :=
  map (fun b => match b with x41 => x61 | x42 => x62 | x43 => x63 | _ => b end) w.

Theorem C11_file_differs_short_or_lower :
  (exists doc w, length (bs doc) = 1 /\
     show_cooc (fst (mem_load ascii_lower false 0 (corpus_new (doc_of doc) false 0 0) (Some w))) = [] /\
     show_cooc (fst (fs_load ascii_lower false 0 (corpus_new (doc_of doc) false 0 0) (Some w))) <> []) /\
  (exists doc w,
     show_cooc (fst (mem_load ascii_lower false 0 (corpus_new (doc_of doc) true 0 0) (Some w))) =
       [((0, 1), Some (2 ^ 52, -52)); ((1, 2), Some (2 ^ 52, -52))]%Z /\
     show_cooc (fst (fs_load ascii_lower false 0 (corpus_new (doc_of doc) true 0 0) (Some w))) =
       [((0, 0), Some (2 ^ 52, -52)); ((0, 2), Some (2 ^ 52, -52))]%Z).
Proof.
  split.
  - exists "a"%string, {| w_type := "inc"; w_window := 2 |}. vm_compute. repeat split. discriminate.
  - exists "a B c"%string, {| w_type := "inc"; w_window := 1 |}. vm_compute. auto.
Qed.
Print Assumptions C11_file_differs_short_or_lower.

Example C11_case :
  let w := Some {| w_type := "inc"; w_window := 3 |} in
  map fst (show_cooc (fst (mem_load (fun w => w) false 0 (corpus_new (doc_of "a b c d") false 0 0) w))) =
    [(0, 1); (0, 2); (0, 3); (1, 2); (1, 3); (2, 3)]%Z /\
  map fst (show_cooc (fst (fs_load (fun w => w) false 0 (corpus_new (doc_of "a b c d") false 0 0) w))) =
    [(0, 1); (0, 2); (0, 3); (1, 2); (1, 3)]%Z.
Proof. vm_compute. auto. Qed.

(** C12. Load: both corpora count every word and build the dictionary of the (lower-cased) words. *)
Theorem C12_load : forall lower verbose log_batch doc lc maxc minc all w,
  verbose = false \/ log_batch <> 0%Z -> tokens (rd_data doc) all -> rd_err doc = false -> fits all ->
  let lw := lowered lower lc all in
  let (cm, om) := mem_load lower verbose log_batch (corpus_new doc lc maxc minc) w in
  let (cf, of) := fs_load lower verbose log_batch (corpus_new doc lc maxc minc) w in
  c_len cm = length all /\ c_dic cm = dict_add dict_new lw /\
  c_len cf = length all /\ c_dic cf = dict_add dict_new lw /\
  (w = None -> om = Ret tt /\ of = Ret tt).
Proof. exact Corpus.load_lemma. Qed.
Print Assumptions C12_load.

(** C12. Load reports read errors and over-long words. *)
Theorem C12_load_fails : forall lower verbose log_batch doc lc maxc minc all w,
  verbose = false \/ log_batch <> 0%Z -> tokens (rd_data doc) all ->
  (rd_err doc = true \/ exists x, In x all /\ (65536 <= Z.of_nat (length x))%Z) ->
  (exists e, snd (mem_load lower verbose log_batch (corpus_new doc lc maxc minc) w) = Err e) /\
  (exists e, snd (fs_load lower verbose log_batch (corpus_new doc lc maxc minc) w) = Err e).
Proof. exact Corpus.load_fails_lemma. Qed.
Print Assumptions C12_load_fails.

(** C12. With verbose on, a log batch of 0 panics on the first word. *)
Theorem C12_log_batch_zero_panics : forall lower doc lc maxc minc x all w,
  tokens (rd_data doc) (x :: all) -> (Z.of_nat (length x) <= 65533)%Z ->
  snd (mem_load lower true 0 (corpus_new doc lc maxc minc) w) = Panic /\
  snd (fs_load lower true 0 (corpus_new doc lc maxc minc) w) = Panic.
Proof. exact Corpus.log_batch_zero_lemma. Qed.
Print Assumptions C12_log_batch_zero_panics.

Example C12_case :
  let c := fst (mem_load ascii_lower true 10 (corpus_new (doc_of "B a  b") true 0 0) None) in
  c_len c = 3 /\ dict_len (c_dic c) = 2 /\ dict_id (c_dic c) (bs "a") = (1, true).
Proof. vm_compute. auto. Qed.

(** C13. The filters drop an id exactly when its frequency does not pass. *)
Theorem C13_filters : forall maxc minc d id f, dict_id_freq d (Z.of_nat id) = Ret f ->
  filters_any (corpus_filters maxc minc) false id d = Ret (negb (kept maxc minc f)).
Proof. exact Corpus.filters_lemma. Qed.
Print Assumptions C13_filters.

Example C13_case :
  let d := dict_add dict_new [bs "a"; bs "b"; bs "a"; bs "c"; bs "a"; bs "b"] in
  map (fun id => filters_any (corpus_filters 2 2) false id d) [0; 1; 2] = [Ret true; Ret false; Ret true].
Proof. vm_compute. reflexivity. Qed.

(** C14. IndexedDoc of the in-memory corpus: the ids of the kept words in text order. *)
Theorem C14_indexed_doc : forall lower verbose log_batch doc lc maxc minc all w,
  verbose = false \/ log_batch <> 0%Z -> tokens (rd_data doc) all -> rd_err doc = false -> fits all ->
  let lw := lowered lower lc all in
  let c := fst (mem_load lower verbose log_batch (corpus_new doc lc maxc minc) w) in
  exists ids, mem_indexed_doc c = Ret ids /\
    ids = map (fun x => fst (dict_id (c_dic c) x)) (kept_words maxc minc lw) /\
    Forall (fun id => id < dict_len (c_dic c) /\
      exists f, dict_id_freq (c_dic c) (Z.of_nat id) = Ret f /\ kept maxc minc f = true) ids.
Proof. exact Corpus.indexed_doc_lemma. Qed.
Print Assumptions C14_indexed_doc.

Example C14_case :
  mem_indexed_doc (fst (mem_load (fun w => w) false 0 (corpus_new (doc_of "x a b a c b") false (-1) 2) None))
  = Ret [1; 2; 1; 2].
Proof. vm_compute. reflexivity. Qed.

(** C15. BatchWords of the file-backed corpus, whatever the position of the file: the batches are what
    IndexedDoc gives, all full but the last, and the channel is closed after them. *)
Theorem C15_batch_words : forall lower verbose log_batch doc lc maxc minc all w pos size,
  verbose = false \/ log_batch <> 0%Z -> tokens (rd_data doc) all -> rd_err doc = false -> fits all ->
  1 <= size ->
  let cm := fst (mem_load lower verbose log_batch (corpus_new doc lc maxc minc) w) in
  let cf := fst (fs_load lower verbose log_batch (corpus_new doc lc maxc minc) w) in
  let r := {| rd_data := rd_data doc; rd_pos := pos; rd_err := false |} in
  exists full last ids,
    fs_batch_words lower cf r (Z.of_nat size) = (full ++ [last], true, Ret tt) /\
    Forall (fun b => length b = size) full /\ length last < size /\
    mem_indexed_doc cm = Ret ids /\ concat (full ++ [last]) = ids.
Proof. exact Corpus.batch_words_lemma. Qed.
Print Assumptions C15_batch_words.

(** C15. Batch sizes below 1: negative panics at once; 0 panics when a word is kept. *)
Theorem C15_batch_size_not_positive : forall lower verbose log_batch doc lc maxc minc all w,
  verbose = false \/ log_batch <> 0%Z -> tokens (rd_data doc) all -> rd_err doc = false -> fits all ->
  let cf := fst (fs_load lower verbose log_batch (corpus_new doc lc maxc minc) w) in
  (forall size, (size < 0)%Z -> fs_batch_words lower cf doc size = ([], false, Panic)) /\
  fs_batch_words lower cf doc 0 =
    (match kept_words maxc minc (lowered lower lc all) with
     | [] => ([[]], true, Ret tt)
     | _ => ([], false, Panic)
     end).
Proof. exact Corpus.batch_zero_lemma. Qed.
Print Assumptions C15_batch_size_not_positive.

Example C15_case :
  let cf := fst (fs_load (fun w => w) false 0 (corpus_new (doc_of "x a b a c b a") false (-1) 2) None) in
  fs_batch_words (fun w => w) cf (doc_of "x a b a c b a") 2 = ([[1; 2]; [1; 2]; [1]], true, Ret tt).
Proof. vm_compute. reflexivity. Qed.

(** C16. A second pass that fails after the words [seen]: the full batches were sent, the rest of the ids
    is lost, an error is returned, and the channel is not closed. *)
Theorem C16_batch_words_read_error : forall lower verbose log_batch doc lc maxc minc all w r seen more size,
  verbose = false \/ log_batch <> 0%Z -> tokens (rd_data doc) all -> rd_err doc = false -> fits all ->
  tokens (rd_data r) (seen ++ more) -> fits seen -> incl seen all -> 1 <= size ->
  (more = [] /\ rd_err r = true \/ exists x t, more = x :: t /\ (65536 <= Z.of_nat (length x))%Z) ->
  let cf := fst (fs_load lower verbose log_batch (corpus_new doc lc maxc minc) w) in
  exists full rest e,
    fs_batch_words lower cf r (Z.of_nat size) = (full, false, Err e) /\
    Forall (fun b => length b = size) full /\ length rest < size /\
    concat full ++ rest =
      map (fun x => fst (dict_id (c_dic cf) x))
          (filter (fun x => kept maxc minc (occurrences x (lowered lower lc all))) (lowered lower lc seen)).
Proof. exact Corpus.batch_fail_lemma. Qed.
Print Assumptions C16_batch_words_read_error.

Example C16_case :
  let cf := fst (fs_load (fun w => w) false 0 (corpus_new (doc_of "a b c d") false (-1) 0) None) in
  fs_batch_words (fun w => w) cf {| rd_data := bs "a b c"; rd_pos := 0; rd_err := true |} 2
  = ([[0; 1]], false, Err err_read).
Proof. vm_compute. reflexivity. Qed.

(** C69. Loading with type prox succeeds exactly when no two equal words are within the window. *)
Theorem C69_proximity_load : forall lower verbose log_batch doc lc maxc minc all win,
  verbose = false \/ log_batch <> 0%Z -> tokens (rd_data doc) all -> rd_err doc = false -> fits all ->
  let lw := lowered lower lc all in
  (Z.of_nat (length (distinct lw)) <= 2 ^ 32)%Z ->
  let res := snd (mem_load lower verbose log_batch (corpus_new doc lc maxc minc)
                   (Some {| w_type := "prox"; w_window := win |})) in
  (res = Ret tt <-> forall x y, In (x, y) (window_pairs (Z.to_nat win) lw) -> x <> y) /\
  (res <> Ret tt -> exists e, res = Err e).
Proof. exact Corpus.prox_load_lemma. Qed.
Print Assumptions C69_proximity_load.

Example C69_case :
  let load s := snd (mem_load (fun w => w) false 0 (corpus_new (doc_of s) false 0 0)
                       (Some {| w_type := "prox"; w_window := 2 |})) in
  load "a b c a b"%string = Ret tt /\ load "a b a"%string = Err err_zero_div.
Proof. vm_compute. auto. Qed.
