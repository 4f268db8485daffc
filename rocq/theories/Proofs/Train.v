(** * Train until the workers start *)
From Coq Require Import Lia Sorting.Permutation.
From Verif.Lib Require Import Go ListFacts F64 F64Facts.
From Verif.Spec Require Import Words Tokens Window Pairs Filter Rows Cells Readable.
From Verif.Model Require Import Dictionary Encode Cooc Reader Corpus Matrix Subsample Huffman Word2vec Cells Glove Lexvec Options Train.
From Verif.Proofs Require Import Dictionary Tokens Reader Cooc Corpus Matrix Word2vec Subsample HuffProps Items LexItems AdaGrad.
Local Open Scope Z_scope.

(** ** New matrices as lists of rows *)
Lemma upd_app_mid {A} (l : list A) x y r : upd (l ++ x :: r) (length l) y = l ++ y :: r.
Proof. induction l as [|z l IH]; [reflexivity|]. cbn. f_equal. exact IH. Qed.

Lemma all_len_app n a b : all_len n a -> all_len n b -> all_len n (a ++ b).
Proof. intros. apply Forall_app; auto. Qed.
Lemma all_len_zero n k : all_len n (repeat (repeat fzero n) k).
Proof. apply Forall_forall. intros r Hr. apply repeat_spec in Hr. subst. apply repeat_length. Qed.

Section New.
Context {St : Type} (fn : St -> Z -> list f64 -> St * list f64).
Hypothesis fn_len : forall st i l, length (snd (fn st i l)) = length l.

Lemma row_calls_len col : forall n i st, length (snd (row_calls fn col n i st)) = n /\ all_len col (snd (row_calls fn col n i st)).
Proof.
  induction n as [|n IH]; intros i st; [split; [reflexivity|constructor]|]. cbn [row_calls].
  destruct (fn st i (repeat fzero col)) as [st1 row] eqn:E. specialize (IH (i + 1) st1).
  destruct (row_calls fn col n (i + 1) st1) as [st2 rows]. cbn [snd] in *. destruct IH. split; [cbn; auto|].
  constructor; auto. pose proof (fn_len st i (repeat fzero col)) as H1. rewrite E, repeat_length in H1. exact H1.
Qed.

Lemma mat_fill_rows col : forall n done st, all_len col done ->
  mat_fill fn n (Z.of_nat (length done)) st (of_rows col (done ++ repeat (repeat fzero col) n)) =
  Ret (fst (row_calls fn col n (Z.of_nat (length done)) st), of_rows col (done ++ snd (row_calls fn col n (Z.of_nat (length done)) st))).
Proof.
  induction n as [|n IH]; intros done st Hd; [reflexivity|]. cbn [mat_fill row_calls repeat].
  assert (AL : all_len col (done ++ repeat fzero col :: repeat (repeat fzero col) n)).
  { apply all_len_app; auto. apply (all_len_zero col (S n)). }
  assert (LT : (length done < length (done ++ repeat fzero col :: repeat (repeat fzero col) n))%nat) by (rewrite app_length; cbn; lia).
  rewrite of_rows_slice by assumption. rewrite app_nth2, Nat.sub_diag by lia. cbn [nth obind].
  destruct (fn st (Z.of_nat (length done)) (repeat fzero col)) as [st1 row] eqn:E.
  assert (Hrow : length row = col).
  { pose proof (fn_len st (Z.of_nat (length done)) (repeat fzero col)) as H. rewrite E, repeat_length in H. exact H. }
  rewrite of_rows_store by assumption. rewrite upd_app_mid.
  replace (Z.of_nat (length done) + 1) with (Z.of_nat (length (done ++ [row]))) by (rewrite app_length; cbn; lia).
  replace (done ++ row :: repeat (repeat fzero col) n) with ((done ++ [row]) ++ repeat (repeat fzero col) n) by (rewrite <- app_assoc; reflexivity).
  rewrite IH by (apply all_len_app; auto; constructor; auto; constructor).
  destruct (row_calls fn col n (Z.of_nat (length (done ++ [row]))) st1) as [st2 rows]. cbn [fst snd].
  rewrite <- app_assoc. reflexivity.
Qed.

Lemma concat_zeros col n : concat (repeat (repeat fzero col) n) = repeat fzero (n * col).
Proof. induction n as [|n IH]; [reflexivity|]. cbn [repeat concat Nat.mul]. rewrite IH, <- repeat_app. reflexivity. Qed.

Lemma mat_new_rows r c st : let run := row_calls fn c r 0 st in
  mat_new (Z.of_nat r) (Z.of_nat c) fn st = Ret (fst run, of_rows c (snd run)) /\
  length (snd run) = r /\ all_len c (snd run).
Proof.
  cbv zeta. split; [|apply row_calls_len].
  unfold mat_new. destruct (Z.ltb_spec (Z.of_nat r * Z.of_nat c) 0); [nia|].
  replace (Mat (repeat fzero (Z.to_nat (Z.of_nat r * Z.of_nat c))) (Z.of_nat r) (Z.of_nat c))
    with (of_rows c ([] ++ repeat (repeat fzero c) r)).
  - rewrite Nat2Z.id. change 0 with (Z.of_nat (length (@nil (list f64)))). rewrite mat_fill_rows by constructor. reflexivity.
  - unfold of_rows. cbn [app]. rewrite concat_zeros, repeat_length. f_equal. f_equal. nia.
Qed.
End New.

Lemma fill_row_len value st i l : length (snd (fill_row value st i l)) = length l.
Proof. unfold fill_row. cbn. rewrite map_length, seq_length. reflexivity. Qed.

(** The rows filled from a stream of values: row q, component j is value number [k + q*c + j]. *)
Lemma fill_rows_spec value c : forall r i k, let run := row_calls (fill_row value) c r i k in
  fst run = (k + r * c)%nat /\ forall q j, (q < r)%nat -> (j < c)%nat -> nth j (nth q (snd run) []) fzero = value (k + q * c + j)%nat.
Proof.
  induction r as [|r IH]; intros i k; cbv zeta; [split; [cbn; lia|intros; lia]|]. cbn [row_calls]. unfold fill_row at 1 3. cbv beta iota.
  rewrite repeat_length. specialize (IH (i + 1) (k + c)%nat). cbv zeta in IH.
  destruct (row_calls (fill_row value) c r (i + 1) (k + c)%nat) as [k2 rows]. cbn [fst snd] in *. destruct IH as (-> & IH). split; [lia|].
  intros [|q] j Hq Hj; cbn [nth].
  - rewrite (nth_indep _ fzero (value 0%nat)) by (rewrite map_length, seq_length; lia). rewrite map_nth, seq_nth by lia. f_equal. lia.
  - rewrite IH by lia. f_equal. lia.
Qed.

Lemma mat_new_fill value r c k : exists rows,
  mat_new (Z.of_nat r) (Z.of_nat c) (fill_row value) k = Ret ((k + r * c)%nat, of_rows c rows) /\
  length rows = r /\ all_len c rows /\
  forall q j, (q < r)%nat -> (j < c)%nat -> nth j (nth q rows []) fzero = value (k + q * c + j)%nat.
Proof.
  destruct (mat_new_rows (fill_row value) (fill_row_len value) r c k) as (E & L & A).
  destruct (fill_rows_spec value c r 0 k) as (F & N).
  exists (snd (row_calls (fill_row value) c r 0 k)). rewrite F in E. split; [exact E|]. auto.
Qed.

(** ** Loading *)
Lemma load_none lower mem lc maxc minc verbose lb doc all : readable verbose lb doc all ->
  exists c, load_corpus lower mem lc maxc minc verbose lb None doc = Ret c /\
    c_dic c = dict_add dict_new (lowered lower lc all) /\ c_len c = length all /\ c_cooc c = None.
Proof.
  intros (Hr & Ht & He & Hf). apply report_ok in Hr. unfold load_corpus. destruct mem.
  - unfold mem_load. cbn [c_doc corpus_new]. rewrite (mem_first _ _ _ _ _ _ _ _ Hr Ht He Hf). cbn [obind].
    eexists. split; [reflexivity|]. cbn. rewrite lowered_eq. auto.
  - unfold fs_load. cbn [c_doc corpus_new]. rewrite (fs_first _ _ _ _ _ _ _ _ Hr Ht He Hf). cbn [obind].
    eexists. split; [reflexivity|]. cbn. rewrite lowered_eq. auto.
Qed.

Lemma load_bad_type lower mem lc maxc minc verbose lb doc all typ win : readable verbose lb doc all ->
  typ <> increment -> typ <> proximity ->
  load_corpus lower mem lc maxc minc verbose lb (Some {| w_type := typ; w_window := win |}) doc = Err err_count_type.
Proof.
  intros (Hr & Ht & He & Hf) H1 H2. apply report_ok in Hr.
  assert (N : co_new typ = Err err_count_type).
  { unfold co_new. rewrite (proj2 (String.eqb_neq _ _) H1), (proj2 (String.eqb_neq _ _) H2). reflexivity. }
  unfold load_corpus. destruct mem.
  - unfold mem_load. cbn [c_doc corpus_new]. rewrite (mem_first _ _ _ _ _ _ _ _ Hr Ht He Hf). cbn [w_type]. rewrite N. reflexivity.
  - unfold fs_load. cbn [c_doc corpus_new]. rewrite (fs_first _ _ _ _ _ _ _ _ Hr Ht He Hf). cbn [w_type]. rewrite N. reflexivity.
Qed.

(** The pairs given to the matrix by the two corpora. *)
Definition fed_pairs lower (mem lc : bool) (win : Z) (all : list gostring) : list (Z * Z) :=
  let lw := lowered lower lc all in
  if mem then map (fun p => (Z.of_nat (word_id lw (fst p)), Z.of_nat (word_id lw (snd p)))) (window_pairs (Z.to_nat win) lw)
  else map (fun p => (Z.of_nat (raw_id lw (fst p)), Z.of_nat (raw_id lw (snd p)))) (fc_emitted (Z.to_nat win) all).

Lemma load_run lower mem lc maxc minc verbose lb doc all typ win co : readable verbose lb doc all ->
  mem = true \/ 1 <= win -> co_new typ = Ret co ->
  let run := for_each (fun c p => co_add c (fst p) (snd p)) co (fed_pairs lower mem lc win all) in
  exists c, load_corpus lower mem lc maxc minc verbose lb (Some {| w_type := typ; w_window := win |}) doc =
    obind (snd run) (fun _ => Ret c) /\
    c_dic c = dict_add dict_new (lowered lower lc all) /\ c_len c = length all /\ c_cooc c = Some (fst run).
Proof.
  intros (Hr & Ht & He & Hf) Hw Hco. apply report_ok in Hr. cbv zeta. unfold load_corpus, fed_pairs. destruct mem.
  - rewrite (mem_load_run lower verbose lb doc lc maxc minc all typ win co Hr Ht He Hf Hco). cbv zeta. rewrite lowered_eq.
    destruct (for_each _ co _) as [co' o]. eexists. split; [reflexivity|]. cbn. rewrite lowered_eq. auto.
  - destruct Hw as [Hw|Hw]; [discriminate|].
    pose proof (fs_load_run lower verbose lb doc lc maxc minc all typ (Z.to_nat win) co Hr Ht He Hf Hco ltac:(lia)) as HL.
    rewrite Z2Nat.id in HL by lia. rewrite HL. cbv zeta.
    destruct (for_each _ co _) as [co' o]. eexists. split; [reflexivity|]. cbn. rewrite lowered_eq. auto.
Qed.

Lemma co_add_res c a b : snd (co_add c a b) = Ret tt \/ exists e, snd (co_add c a b) = Err e.
Proof.
  unfold co_add. cbv zeta. destruct (String.eqb _ increment); cbn [snd]; auto. destruct (String.eqb _ proximity); cbn [snd]; eauto.
  destruct (_ =? 0); cbn [snd]; eauto.
Qed.
Lemma co_adds_res : forall adds c, let o := snd (for_each (fun c p => co_add c (fst p) (snd p)) c adds) in o = Ret tt \/ exists e, o = Err e.
Proof.
  induction adds as [|p adds IH]; intros c; cbn [for_each]; auto. cbv zeta.
  pose proof (co_add_res c (fst p) (snd p)) as H. destruct (co_add c (fst p) (snd p)) as [c' [[]|e|]]; cbn [snd] in H |- *.
  - apply IH.
  - eauto.
  - destruct H as [H|[e H]]; discriminate.
Qed.

Lemma word_ids_in32 (lw : list gostring) w : Z.of_nat (length (distinct lw)) <= 2 ^ 32 -> 0 <= Z.of_nat (raw_id lw w) < 2 ^ 32.
Proof.
  intros Hv. unfold raw_id. destruct (in_dec gostring_eq_dec w lw) as [H|H]; [|lia]. apply word_id_lt in H. lia.
Qed.

Lemma fed_in32 lower mem lc win all : Z.of_nat (length (distinct (lowered lower lc all))) <= 2 ^ 32 ->
  Forall (fun p => in32 (fst p) /\ in32 (snd p)) (fed_pairs lower mem lc win all).
Proof.
  intros Hv. unfold fed_pairs. set (lw := lowered lower lc all) in *. apply Forall_forall. intros q Hq. destruct mem; apply in_map_iff in Hq; destruct Hq as (p & <- & Hp).
  - apply In_window in Hp. cbn [fst snd]. destruct Hp as (H1 & H2). apply word_id_lt in H1, H2. unfold in32. lia.
  - cbn [fst snd]. unfold in32. split; apply word_ids_in32; exact Hv.
Qed.

Lemma inc_run adds : forall c, co_typ c = increment -> snd (for_each (fun c p => co_add c (fst p) (snd p)) c adds) = Ret tt.
Proof.
  induction adds as [|p adds IH]; intros c Hc; [reflexivity|]. cbn [for_each]. unfold co_add at 1. cbv zeta. rewrite Hc. cbn [String.eqb].
  change (String.eqb increment increment) with true. cbv iota. apply IH. reflexivity.
Qed.
Lemma inc_nonempty adds : adds <> [] -> co_ma (fst (for_each (fun c p => co_add c (fst p) (snd p)) {| co_typ := increment; co_ma := [] |} adds)) <> [].
Proof.
  assert (G : forall l c, co_ma c <> [] -> co_ma (fst (for_each (fun c p => co_add c (fst p) (snd p)) c l)) <> []).
  { induction l as [|p l IH]; intros c Hc; [exact Hc|]. cbn [for_each].
    assert (H : co_ma (fst (co_add c (fst p) (snd p))) <> []).
    { unfold co_add. cbv zeta. destruct (String.eqb _ increment); cbn [fst co_ma].
      - destruct (co_ma c); [contradiction|]. cbn. destruct p0. destruct (Z.eq_dec _ _); discriminate.
      - destruct (String.eqb _ proximity); [|exact Hc]. destruct (_ =? 0); [exact Hc|]. cbn [fst co_ma].
        destruct (co_ma c); [contradiction|]. cbn. destruct p0. destruct (Z.eq_dec _ _); discriminate. }
    destruct (co_add c (fst p) (snd p)) as [c' [[]|e|]]; cbn [fst] in *; auto. }
  intros Hn. destruct adds as [|p l]; [contradiction|]. cbn [for_each]. unfold co_add at 1. cbv zeta. cbn [co_typ].
  change (String.eqb increment increment) with true. cbv iota. apply G. cbn. discriminate.
Qed.

Lemma subsample_total ws t : exists samples, subsample_new (dict_add dict_new ws) t = Ret samples /\ length samples = dict_len (dict_add dict_new ws).
Proof.
  destruct (sample_loop_spec ws _ t (dict_repr_of ws) (dict_len (dict_add dict_new ws)) 0 eq_refl) as (l & El & Hl & _).
  exists l. auto.
Qed.

Lemma huffman_total ws dim : 0 <= dim -> exists h, huffman_tree (dict_add dict_new ws) dim = Ret (h, seq 0 (dict_len (dict_add dict_new ws))).
Proof.
  intros Hd. destruct (huffman_structure_lemma [ws] dim) as (_ & H). cbn [fold_left] in H. destruct H as (h & E & _); [auto|]. eauto.
Qed.

(** ** word2vec *)
Section W2v.
Variables (lower : gostring -> gostring) (rand : nat -> f64) (o : w2v_opts) (doc : reader) (all : list gostring).
Hypotheses (Hread : readable (w2v_Verbose o) (w2v_LogBatch o) doc all) (Hdim : 0 <= w2v_Dim o).
Let lw := lowered lower (w2v_ToLower o) all.
Let d := dict_add dict_new lw.

Lemma w2v_setup_prefix : exists c rows samples,
  c_dic c = d /\ c_len c = length all /\
  length rows = dict_len d /\ all_len (Z.to_nat (w2v_Dim o)) rows /\ length samples = dict_len d /\
  (forall q j, (q < dict_len d)%nat -> (j < Z.to_nat (w2v_Dim o))%nat ->
     nth j (nth q rows []) fzero = centered rand (w2v_Dim o) (q * Z.to_nat (w2v_Dim o) + j)) /\
  subsample_new d (w2v_SubsampleThreshold o) = Ret samples /\
  w2v_setup lower rand o doc =
  obind (if String.eqb (w2v_ModelType o) skipgram_type then new_mod SkipGram (w2v_Goroutines o) (w2v_Dim o)
         else if String.eqb (w2v_ModelType o) cbow_type then new_mod Cbow (w2v_Goroutines o) (w2v_Dim o)
         else Err "invalid model") (fun md =>
  obind (if String.eqb (w2v_OptimizerType o) ns_type then
           obind (mat_new (Z.of_nat (dict_len d)) (w2v_Dim o) (fill_row (centered rand (w2v_Dim o))) (dict_len d * Z.to_nat (w2v_Dim o))%nat) (fun '(_, ctx) =>
           Ret (NS ctx (w2v_NegativeSampleSize o)))
         else if String.eqb (w2v_OptimizerType o) hs_type then
           obind (huffman_tree d (w2v_Dim o)) (fun '(h, set) => Ret (HS h set (w2v_MaxDepth o)))
         else Err "invalid optimizer") (fun opt =>
  Ret (W2v c (of_rows (Z.to_nat (w2v_Dim o)) rows) samples md opt))).
Proof.
  destruct (load_none lower (w2v_DocInMemory o) (w2v_ToLower o) (w2v_MaxCount o) (w2v_MinCount o) _ _ _ _ Hread) as (c & E & Ed & El & _).
  destruct (mat_new_fill (centered rand (w2v_Dim o)) (dict_len d) (Z.to_nat (w2v_Dim o)) 0) as (rows & Em & L & A & V).
  destruct (subsample_total lw (w2v_SubsampleThreshold o)) as (samples & Es & Ls).
  exists c, rows, samples. split; [exact Ed|]. split; [exact El|]. split; [exact L|]. split; [exact A|]. split; [exact Ls|].
  split; [exact V|]. split; [exact Es|].
  unfold w2v_setup. rewrite E. cbn [obind]. cbv zeta. rewrite Ed. fold lw. fold d.
  rewrite Z2Nat.id in Em by assumption. rewrite Em. cbn [obind]. fold lw d in Es. rewrite Es. cbn [obind]. reflexivity.
Qed.
End W2v.

(** ** GloVe *)
Section Glv.
Variables (lower : gostring -> gostring) (rand : nat -> f64) (flog : f64 -> f64) (fpow : f64 -> f64 -> f64)
  (order : list (Z * f64) -> list (Z * f64)) (o : glv_opts) (doc : reader) (all : list gostring).
Hypotheses (Hread : readable (glv_Verbose o) (glv_LogBatch o) doc all) (Hdim : 0 <= glv_Dim o)
  (Hwin : glv_DocInMemory o = true \/ 1 <= glv_Window o).
Let lw := lowered lower (glv_ToLower o) all.
Let d := dict_add dict_new lw.

Lemma glv_setup_prefix co : co_new (glv_CountType o) = Ret co -> exists rows,
  let run := for_each (fun c p => co_add c (fst p) (snd p)) co (fed_pairs lower (glv_DocInMemory o) (glv_ToLower o) (glv_Window o) all) in
  length rows = (dict_len d * 2)%nat /\ all_len (S (Z.to_nat (glv_Dim o))) rows /\
  (forall q j, (q < dict_len d * 2)%nat -> (j < S (Z.to_nat (glv_Dim o)))%nat ->
     nth j (nth q rows []) fzero = scaled rand (glv_Dim o) (q * S (Z.to_nat (glv_Dim o)) + j)) /\
  glv_setup lower rand flog fpow order o doc =
  obind (snd run) (fun _ =>
  obind (if String.eqb (glv_SolverType o) sgd_type then Ret Stochastic
         else if String.eqb (glv_SolverType o) adagrad_type then
           obind (new_adagrad (Z.of_nat (dict_len d)) (glv_Dim o)) (fun g => Ret (AdaGrad g))
         else Err "invalid solver") (fun sol =>
  Ret (Glv d (of_rows (S (Z.to_nat (glv_Dim o))) rows) sol
        (map (make_item flog fpow (glv_Xmax o) (glv_Alpha o)) (order (co_ma (fst run))))))).
Proof.
  intros Hco.
  destruct (load_run lower (glv_DocInMemory o) (glv_ToLower o) (glv_MaxCount o) (glv_MinCount o) _ _ _ _ (glv_CountType o) (glv_Window o) co Hread Hwin Hco) as (c & E & Ed & El & Ec).
  destruct (mat_new_fill (scaled rand (glv_Dim o)) (dict_len d * 2) (S (Z.to_nat (glv_Dim o))) 0) as (rows & Em & L & A & V).
  exists rows. cbv zeta. split; [exact L|]. split; [exact A|]. split; [exact V|].
  unfold glv_setup. rewrite E. destruct (snd (for_each _ co _)); cbn [obind]; try reflexivity. cbv zeta. rewrite Ed. fold lw. fold d.
  replace (Z.of_nat (dict_len d) * 2) with (Z.of_nat (dict_len d * 2)) by lia.
  replace (glv_Dim o + 1) with (Z.of_nat (S (Z.to_nat (glv_Dim o)))) by lia. rewrite Em. cbn [obind].
  assert (MI : forall em, make_items flog fpow (glv_Xmax o) (glv_Alpha o) (glv_Verbose o) (glv_LogBatch o) em = Ret (map (make_item flog fpow (glv_Xmax o) (glv_Alpha o)) em)).
  { intros em. apply make_items_map. apply Hread. }
  rewrite Ec, MI. cbn [obind]. reflexivity.
Qed.

Lemma glv_bad_count : glv_CountType o <> increment -> glv_CountType o <> proximity ->
  glv_setup lower rand flog fpow order o doc = Err err_count_type.
Proof. intros H1 H2. unfold glv_setup. rewrite (load_bad_type lower _ _ _ _ _ _ _ _ _ _ Hread H1 H2). reflexivity. Qed.
End Glv.

Lemma co_new_cases typ : (exists co, co_new typ = Ret co /\ co = {| co_typ := typ; co_ma := [] |} /\ (typ = increment \/ typ = proximity)) \/ (typ <> increment /\ typ <> proximity).
Proof.
  destruct (String.eqb_spec typ increment) as [->|H1]; [left; eexists; repeat split; auto|].
  destruct (String.eqb_spec typ proximity) as [->|H2]; [left; eexists; repeat split; auto|]. auto.
Qed.

(** ** LexVec *)
Section Lxv.
Variables (lower : gostring -> gostring) (rand : nat -> f64) (flog : f64 -> f64) (fpow : f64 -> f64 -> f64)
  (order : list (Z * f64) -> list (Z * f64)) (o : lex_opts) (doc : reader) (all : list gostring).
Hypotheses (Hread : readable (lex_Verbose o) (lex_BatchSize o) doc all) (Hdim : 0 <= lex_Dim o)
  (Hwin : lex_DocInMemory o = true \/ 1 <= lex_Window o).
Let lw := lowered lower (lex_ToLower o) all.
Let d := dict_add dict_new lw.

Lemma lxv_setup_prefix : exists c rows samples co,
  co = fst (for_each (fun c p => co_add c (fst p) (snd p)) {| co_typ := increment; co_ma := [] |} (fed_pairs lower (lex_DocInMemory o) (lex_ToLower o) (lex_Window o) all)) /\
  c_dic c = d /\ c_len c = length all /\ c_cooc c = Some co /\
  length rows = (dict_len d * 2)%nat /\ all_len (Z.to_nat (lex_Dim o)) rows /\
  (forall q j, (q < dict_len d * 2)%nat -> (j < Z.to_nat (lex_Dim o))%nat ->
     nth j (nth q rows []) fzero = centered rand (lex_Dim o) (q * Z.to_nat (lex_Dim o) + j)) /\
  subsample_new d (lex_SubsampleThreshold o) = Ret samples /\ length samples = dict_len d /\
  lxv_setup lower rand flog fpow order o doc =
  obind (lex_make_items flog fpow d (Z.of_nat (length all)) (lex_RelationType o) (lex_Smooth o)
                            (lex_Verbose o) (lex_LogBatch o) (order (co_ma co)))
        (fun items => Ret (Lxv c (of_rows (Z.to_nat (lex_Dim o)) rows) samples items)).
Proof.
  destruct (load_run lower (lex_DocInMemory o) (lex_ToLower o) (lex_MaxCount o) (lex_MinCount o) _ _ _ _ increment (lex_Window o) _ Hread Hwin eq_refl) as (c & E & Ed & El & Ec).
  rewrite inc_run in E by reflexivity. cbn [obind] in E.
  destruct (mat_new_fill (centered rand (lex_Dim o)) (dict_len d * 2) (Z.to_nat (lex_Dim o)) 0) as (rows & Em & L & A & V).
  destruct (subsample_total lw (lex_SubsampleThreshold o)) as (samples & Es & Ls).
  exists c, rows, samples. eexists. split; [reflexivity|]. split; [exact Ed|]. split; [exact El|]. split; [exact Ec|].
  split; [exact L|]. split; [exact A|]. split; [exact V|]. split; [exact Es|]. split; [exact Ls|].
  unfold lxv_setup. rewrite E. cbn [obind]. cbv zeta. rewrite Ed. fold lw. fold d.
  replace (Z.of_nat (dict_len d) * 2) with (Z.of_nat (dict_len d * 2)) by lia.
  rewrite Z2Nat.id in Em by assumption. rewrite Em. cbn [obind]. fold lw d in Es. rewrite Es. cbn [obind]. rewrite Ec, El. reflexivity.
Qed.
End Lxv.

(** ** Which pairs are fed *)
Lemma window_pairs_nonempty {A} n (l : list A) : window_pairs n l <> [] <-> (1 <= n /\ 2 <= length l)%nat.
Proof.
  split.
  - induction l as [|x [|y l] IH]; cbn [window_pairs length]; intros H.
    + contradiction.
    + rewrite firstn_nil in H. contradiction.
    + destruct n; [|lia]. cbn [firstn map app] in H. apply IH in H. lia.
  - intros (H1 & H2). destruct l as [|x [|y l]]; cbn in H2; try lia. destruct n; [lia|]. cbn. discriminate.
Qed.

Lemma fc_emitted_nonempty n all : (1 <= n)%nat -> fc_emitted n all <> [].
Proof.
  intros Hn. unfold fc_emitted. destruct all as [|w t]; [destruct n; [lia|discriminate]|].
  destruct (Nat.ltb_spec n (length (w :: t))).
  - cbn [length] in *. destruct t as [|v t]; cbn in H; [lia|]. destruct (S (S (length t)) - n + 1)%nat eqn:E; [cbn in E; lia|].
    cbn [length]. cbn [length] in E. rewrite E. cbn [window_pairs_upto]. destruct n; [lia|]. discriminate.
  - destruct t as [|v t]; cbn [length app] in *.
    + replace (n + 1 - 1)%nat with n by lia. destruct n; [lia|]. discriminate.
    + discriminate.
Qed.

Lemma fed_nonempty lower mem lc win all : mem = true \/ 1 <= win ->
  (fed_pairs lower mem lc win all <> [] <-> (mem = false \/ (1 <= win /\ (2 <= length all)%nat))).
Proof.
  intros Hw. unfold fed_pairs. set (lw := lowered lower lc all).
  assert (L : length lw = length all) by (unfold lw, lowered; destruct lc; [apply map_length|reflexivity]).
  assert (MN : forall (A B : Type) (f : A -> B) l, map f l <> [] <-> l <> []).
  { intros A B f [|x l]; cbn; split; congruence. }
  destruct mem.
  - rewrite MN, window_pairs_nonempty, L. split.
    + intros. right. lia.
    + intros [|]; [discriminate|]. lia.
  - destruct Hw as [|Hw]; [discriminate|]. rewrite MN. split; auto. intros _. apply fc_emitted_nonempty. lia.
Qed.
