(** * C49, C50, C51: WordVector and Save

    [of_rows dim rows] is the matrix with these rows. The shape hypotheses are those that Train
    establishes (C42) and training keeps (C35, C44, C48). *)
From Coq Require Import Lia.
From Verif.Lib Require Import Go F64.
From Verif.Spec Require Import Words Rows Saved.
From Verif.Model Require Import Dictionary Corpus Matrix Word2vec Glove Lexvec Options Train FmtFloat Vector.
From Verif.Proofs Require Vector Dictionary.
Local Open Scope Z_scope.

(** C49. word2vec with negative sampling: agg adds the context vector; every other type string gives
    the word vector. *)
Theorem C49_word2vec_ns : forall o w typ dim rows crows k,
  let V := dict_len (c_dic (wv_corpus w)) in
  w2v_Dim o = Z.of_nat dim -> wv_param w = of_rows dim rows -> all_len dim rows -> length rows = V ->
  wv_opt w = NS (of_rows dim crows) k -> all_len dim crows -> length crows = V ->
  exists out, w2v_word_vector o w typ = Ret (of_rows dim out) /\ length out = V /\ all_len dim out /\
    forall q j, (q < V)%nat -> (j < dim)%nat -> nth j (nth q out []) fzero =
      if String.eqb typ "agg" then fadd (nth j (nth q rows []) fzero) (nth j (nth q crows []) fzero)
      else nth j (nth q rows []) fzero.
Proof.
  intros o w typ dim rows crows k V ED EP A L EO Ac Lc.
  pose proof (Vector.w2v_word_vector_spec o w typ V dim rows eq_refl ED EP A L) as H. rewrite EO in H.
  eexists. split; [apply H; auto|]. apply Vector.table_ok.
Qed.
Print Assumptions C49_word2vec_ns.

(** C49. With hierarchical softmax the type string has no effect. *)
Theorem C49_word2vec_hs : forall o w typ dim rows h leaves depth,
  let V := dict_len (c_dic (wv_corpus w)) in
  w2v_Dim o = Z.of_nat dim -> wv_param w = of_rows dim rows -> all_len dim rows -> length rows = V ->
  wv_opt w = HS h leaves depth ->
  exists out, w2v_word_vector o w typ = Ret (of_rows dim out) /\ length out = V /\ all_len dim out /\
    forall q j, (q < V)%nat -> (j < dim)%nat -> nth j (nth q out []) fzero = nth j (nth q rows []) fzero.
Proof.
  intros o w typ dim rows h leaves depth V ED EP A L EO.
  pose proof (Vector.w2v_word_vector_spec o w typ V dim rows eq_refl ED EP A L) as H. rewrite EO in H.
  eexists. split; [apply H; auto|]. apply Vector.table_ok.
Qed.
Print Assumptions C49_word2vec_hs.

(** C49. GloVe and LexVec are the other way round: agg gives the word vector alone, every other type
    string (also single) the sum of word and context vector; GloVe's bias component is left out. *)
Theorem C49_glove : forall o g typ dim rows, let V := dict_len (gl_dic g) in
  glv_Dim o = Z.of_nat dim -> gl_param g = of_rows (S dim) rows -> all_len (S dim) rows -> length rows = (2 * V)%nat ->
  exists out, glv_word_vector o g typ = Ret (of_rows dim out) /\ length out = V /\ all_len dim out /\
    forall q j, (q < V)%nat -> (j < dim)%nat -> nth j (nth q out []) fzero =
      if String.eqb typ "agg" then nth j (nth q rows []) fzero
      else fadd (nth j (nth q rows []) fzero) (nth j (nth (q + V) rows []) fzero).
Proof.
  intros o g typ dim rows V ED EP A L. eexists. split; [exact (Vector.glv_word_vector_spec o g typ V dim rows eq_refl ED EP A L)|].
  apply Vector.table_ok.
Qed.
Print Assumptions C49_glove.

Theorem C49_lexvec : forall o l typ dim rows, let V := dict_len (c_dic (lx_corpus l)) in
  lex_Dim o = Z.of_nat dim -> lx_param l = of_rows dim rows -> all_len dim rows -> length rows = (2 * V)%nat ->
  exists out, lxv_word_vector o l typ = Ret (of_rows dim out) /\ length out = V /\ all_len dim out /\
    forall q j, (q < V)%nat -> (j < dim)%nat -> nth j (nth q out []) fzero =
      if String.eqb typ "agg" then nth j (nth q rows []) fzero
      else fadd (nth j (nth q rows []) fzero) (nth j (nth (q + V) rows []) fzero).
Proof.
  intros o l typ dim rows V ED EP A L. eexists. split; [exact (Vector.lxv_word_vector_spec o l typ V dim rows eq_refl ED EP A L)|].
  apply Vector.table_ok.
Qed.
Print Assumptions C49_lexvec.

(** Two words a, b, Dim 1, rows (1 | bias) .. (4 | bias): single adds rows q and q+2. *)
Example C49_case :
  let d := dict_add dict_new [bs "a"; bs "b"] in
  let g := Glv d (of_rows 2 (map (fun n => [f_of_Z n; f_of_Z 9]) [1; 2; 3; 4])) Stochastic [] in
  let o := glv_new 2 [G_Dim 1] in
  let show t := match glv_word_vector o g t with Ret m => map fshow (m_array m) | _ => [] end in
  show "single"%string = map fshow [f_of_Z 4; f_of_Z 6] /\ show "agg"%string = map fshow [f_of_Z 1; f_of_Z 2].
Proof. vm_compute. auto. Qed.

(** C50. For a dictionary with the words of [ws] and a matrix with one row per distinct word, Save
    writes exactly the text of Spec/Saved.v: one line per distinct word in order of first appearance
    (which is the id order, C01), whatever buffering cuts the text into. *)
Theorem C50_text : forall cut ws dim rows verbose lb before,
  (forall t, concat (cut t) = t) -> all_len dim rows -> length rows = length (distinct ws) ->
  verbose = false \/ lb <> 0 ->
  save good_writer cut (dict_add dict_new ws) (of_rows dim rows) verbose lb before =
  (before ++ saved_text (distinct ws) rows, Ret tt).
Proof. intros cut ws dim rows verbose lb before Hc A L Hv. rewrite Vector.save_ok by auto. rewrite Vector.bufio_good, Hc. reflexivity. Qed.
Print Assumptions C50_text.

(** C50. It fails, without touching the destination, when the number of rows differs. *)
Theorem C50_mismatch : forall W (wr : writer W) cut ws m verbose lb st,
  m_row m <> Z.of_nat (length (distinct ws)) ->
  exists e, save wr cut (dict_add dict_new ws) m verbose lb st = (st, Err e).
Proof. exact @Vector.save_mismatch. Qed.
Print Assumptions C50_mismatch.

(** C50. Verbose with LogBatch 0 is a division by zero: nothing is written. *)
Theorem C50_log_zero : forall W (wr : writer W) cut ws dim rows st,
  all_len dim rows -> length rows = length (distinct ws) -> ws <> [] ->
  save wr cut (dict_add dict_new ws) (of_rows dim rows) true 0 st = (st, Panic).
Proof. exact @Vector.save_log_zero. Qed.
Print Assumptions C50_log_zero.

Example C50_case :
  let rows := [[f_of_Z 1; f_dec (-5) 1]; [f_dec 25 2; f_of_Z 0]] in
  string_of_list_byte (fst (save good_writer (fun t => [firstn 7 t; skipn 7 t]) (dict_add dict_new [bs "to"; bs "be"; bs "to"])
                                 (of_rows 2 rows) false 0 [])) =
  String.concat (String (Ascii.ascii_of_byte x0a) "") ["to 1.000000 -0.500000 "; "be 0.250000 0.000000 "; ""]%string.
Proof. vm_compute. reflexivity. Qed.

(** C51. Whatever the destination does, Save reports success; it was given a prefix of the text, and
    the whole text if it never failed. *)
Theorem C51_always_success : forall W (wr : writer W) cut ws dim rows verbose lb st,
  (forall t, concat (cut t) = t) -> all_len dim rows -> length rows = length (distinct ws) ->
  verbose = false \/ lb <> 0 ->
  exists st' given rest,
    save (logged wr) cut (dict_add dict_new ws) (of_rows dim rows) verbose lb (st, []) = ((st', given), Ret tt) /\
    saved_text (distinct ws) rows = given ++ rest /\ (~ failing wr -> rest = []).
Proof.
  intros W wr cut ws dim rows verbose lb st Hc A L Hv. rewrite Vector.save_ok by auto.
  set (t := saved_text (distinct ws) rows). destruct (Vector.bufio_logged wr (cut t) (st, [])) as (st' & k & -> & NF).
  exists st', (concat (firstn k (cut t))), (concat (skipn k (cut t))). split; [reflexivity|]. split.
  - rewrite <- concat_app, firstn_skipn. symmetry. apply Hc.
  - intros N. rewrite skipn_all2; auto.
Qed.
Print Assumptions C51_always_success.

(** C51. A destination with room for any number [n] of bytes keeps the first [n] bytes of the text,
    and Save still reports success. *)
Theorem C51_truncated : forall n cut ws dim rows verbose lb,
  (forall t, concat (cut t) = t) -> all_len dim rows -> length rows = length (distinct ws) ->
  verbose = false \/ lb <> 0 ->
  save (full_writer n) cut (dict_add dict_new ws) (of_rows dim rows) verbose lb [] =
  (firstn n (saved_text (distinct ws) rows), Ret tt).
Proof.
  intros n cut ws dim rows verbose lb Hc A L Hv. rewrite Vector.save_ok by auto. rewrite Vector.bufio_full by (cbn; lia).
  rewrite Hc. reflexivity.
Qed.
Print Assumptions C51_truncated.

Example C51_case :
  let s := save (full_writer 9) (fun t => [t]) (dict_add dict_new [bs "to"]) (of_rows 1 [[f_of_Z 1]]) false 0 [] in
  (string_of_list_byte (fst s), snd s) = ("to 1.0000"%string, Ret tt).
Proof. vm_compute. reflexivity. Qed.
