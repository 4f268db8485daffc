(** * C78-C81: whole training runs, for every schedule of the goroutines

    [rand k] is the k-th rand.Float64(), [lower] is strings.ToLower, [exp], [flog], [fpow] are
    math.Exp, math.Log, math.Pow, [order] the iteration order of Go maps, [next] the value of the
    package variable of the generator and [lr] the current learning rate before Train: all
    arbitrary. A run is any sequence of steps of the goroutines (Model/Run.v). *)
From Coq Require Import Lia Reals Sorting.Permutation.
From Verif.Lib Require Import Go F64 F64Facts.
From Verif.Spec Require Import Words Tokens Window Rows Training Filter Readable Runs Sequential OneGoroutine.
From Verif.Model Require Import Dictionary Reader Corpus Matrix Subsample Sigmoid Word2vec Glove Lexvec LearningRate Options Train Sched Run.
From Verif.Proofs Require FmtFloat LearningRate W2vProps RunModels RunGlove RunW2v RunOne Train.
Local Open Scope Z_scope.

(** C78. LexVec: the set-up succeeds, no goroutine fails in any schedule, every run is over after a
    number of steps linear in the text, and Train can return. *)
Theorem C78_lexvec : forall lower rand flog fpow order o doc all, (forall m, Permutation (order m) m) ->
  lxv_usable lower o doc all ->
  exists l0 x, lxv_setup lower rand flog fpow order o doc = Ret l0 /\ lxv_source lower o l0 = Ret x /\
  forall next lr, let iter := Z.to_nat (lex_Iter o) in
  never_fails (lxv_cfg o) (lxv_effects rand o l0) iter (fun _ => x) (lxv_start next lr l0) /\
  ends_within (lxv_cfg o) (lxv_effects rand o l0) iter (fun _ => x) (lxv_start next lr l0)
    (iter * (4 * length (concat (parts x)) + 5 * length (parts x) + 6)) /\
  exists l, lxv_trained lower rand flog fpow order next lr o doc l.
Proof.
  intros lower rand flog fpow order o doc all HP HU. destruct (RunModels.lxv_ready lower rand flog fpow order o doc all HU HP) as (l0 & _ & HS & _).
  destruct (RunModels.lxv_source_ok lower rand flog fpow order o doc all HU l0 HS) as (x & Hx).
  exists l0, x. split; [exact HS|]. split; [exact Hx|]. intros next lr iter.
  split; [exact (RunModels.lxv_never lower rand flog fpow order o doc all HU HP l0 HS x Hx next lr iter)|].
  split; [exact (RunModels.lxv_ends lower rand flog fpow order o doc all HU HP l0 HS x Hx iter _)|].
  destruct (RunModels.lxv_completes lower rand flog fpow order o doc all HU HP l0 HS x Hx next lr iter) as (v & Hv).
  eexists. exists l0, x, v. auto.
Qed.
Print Assumptions C78_lexvec.

(** C78. GloVe, after any successful set-up; with plain counts the set-up does succeed. *)
Theorem C78_glove : forall lower rand flog fpow order o doc all g0, (forall m, Permutation (order m) m) ->
  glv_usable lower o doc all -> glv_setup lower rand flog fpow order o doc = Ret g0 ->
  exists x, glv_source o g0 = Ret x /\
  let iter := Z.to_nat (glv_Iter o) in let E := glv_effects o (Z.of_nat (dict_len (gl_dic g0))) in
  never_fails (glv_cfg o) E iter (fun _ => x) (gl_param g0, gl_solver g0) /\
  ends_within (glv_cfg o) E iter (fun _ => x) (gl_param g0, gl_solver g0)
    (iter * (4 * length (concat (parts x)) + 5 * length (parts x) + 6)) /\
  exists g, glv_trained lower rand flog fpow order o doc g.
Proof.
  intros lower rand flog fpow order o doc all g0 HP HU HS.
  destruct (RunGlove.glv_source_ok lower rand flog fpow order o doc all HU HP g0 HS) as (x & Hx).
  exists x. split; [exact Hx|]. intros iter E.
  split; [exact (RunGlove.glv_never lower rand flog fpow order o doc all HU HP g0 HS x Hx iter)|].
  split; [exact (RunGlove.glv_ends lower rand flog fpow order o doc all HU HP g0 HS x Hx iter _)|].
  destruct (RunGlove.glv_completes lower rand flog fpow order o doc all HU HP g0 HS x Hx iter) as ([m sol] & Hv).
  eexists. exists g0, x, m, sol. auto.
Qed.
Print Assumptions C78_glove.

Theorem C78_glove_counts : forall lower rand flog fpow order o doc all,
  glv_usable lower o doc all -> glv_CountType o = "inc"%string -> exists g0, glv_setup lower rand flog fpow order o doc = Ret g0.
Proof. exact RunGlove.glv_inc_ready. Qed.
Print Assumptions C78_glove_counts.

(** C78. word2vec: [marked exp] is the table lookup, except that the arguments for which the real
    lookup panics (NaN and the float64 just below 6, C29) give an error. In no schedule does a
    goroutine fail, but by such a lookup; and every run is over after a linear number of steps. *)
Definition marked (exp : f64 -> f64) (x : f64) : outcome f64 :=
  if isnan x || feq x (f_of_ratio false (6 * 2 ^ 50 - 1) (2 ^ 50)) then Err "lookup"%string
  else sigmoid (sig_table exp) x.

Theorem C78_word2vec : forall exp lower rand o doc all, w2v_usable lower o doc all ->
  exists w0 x, w2v_setup lower rand o doc = Ret w0 /\ w2v_source lower o w0 = Ret x /\
  forall next lr, let iter := Z.to_nat (w2v_Iter o) in
  let E := w2v_effects (sigmoid (sig_table exp)) rand o w0 in
  (forall l v r, reaches (w2v_cfg o) E iter (fun _ => x) (w2v_start next lr w0) l v -> vrun_step (w2v_cfg o) E iter (fun _ => x) l v r ->
     (exists p, r = Ret p) \/
     (r = Panic /\ exists e, vrun_step (w2v_cfg o) (w2v_effects (marked exp) rand o w0) iter (fun _ => x) l v (Err e))) /\
  ends_within (w2v_cfg o) E iter (fun _ => x) (w2v_start next lr w0)
    (iter * (4 * length (concat (parts x)) + 5 * length (parts x) + 6)).
Proof.
  intros exp lower rand o doc all HU. destruct (RunW2v.w2v_ready exp lower rand o doc all HU) as (w0 & HS).
  destruct (RunW2v.w2v_source_ok lower rand o doc all HU w0 HS) as (x & Hx).
  exists w0, x. split; [exact HS|]. split; [exact Hx|]. intros next lr iter E.
  split; [exact (RunW2v.w2v_only exp lower rand o doc all HU w0 HS x Hx next lr iter)|].
  exact (RunW2v.w2v_ends exp lower rand o doc all HU w0 HS x Hx iter _).
Qed.
Print Assumptions C78_word2vec.

(** C78. The default options are usable, on every machine with at least one processor, for every text
    (not empty for GloVe) with less than 2^26 different words. *)
Theorem C78_defaults : forall lower doc all cpus, 1 <= cpus <= 2 ^ 20 -> tokens (rd_data doc) all -> rd_err doc = false ->
  Forall (fun w => Z.of_nat (length w) <= 65533) all -> Z.of_nat (length (distinct all)) < 2 ^ 26 ->
  w2v_usable lower (w2v_defaults cpus) doc all /\ (all <> [] -> glv_usable lower (glv_defaults cpus) doc all) /\
  lxv_usable lower (lex_defaults cpus) doc all.
Proof.
  intros lower doc all cpus Hc HT HE HW HV.
  assert (HR : forall lb, readable false lb doc all) by (intros lb; split; [auto|]; auto).
  split; [|split].
  - constructor; cbn; auto; try lia.
  - intros Hn. constructor; cbn; auto; try lia. nia.
  - constructor; cbn; auto; try lia.
Qed.
Print Assumptions C78_defaults.

(** A concrete text: the words a b a. *)
Definition aba : reader := {| rd_data := bs "a b a"; rd_pos := 0; rd_err := false |}.
Definition aba_words : list gostring := [bs "a"; bs "b"; bs "a"].
Lemma aba_readable lb : readable false lb aba aba_words.
Proof.
  split; [auto|]. split; [|split; [reflexivity|]].
  - assert (P : forall b, b = x61 \/ b = x62 -> FmtFloat.plain b).
    { intros b Hb s Hs. unfold is_space, space_encodings in Hs. cbn in Hs.
      repeat (destruct Hs as [<-|Hs]; [destruct Hb as [-> | ->]; discriminate|]). destruct Hs. }
    assert (W : forall b, b = x61 \/ b = x62 -> ~ has_space [b]) by (intros b Hb; apply FmtFloat.plain_no_space; repeat constructor; auto).
    assert (B : is_space [x20]) by (cbn; tauto).
    assert (R : forall l, [] = l \/ starts_with_space (x20 :: l)) by (intros l; right; exists [x20], l; auto).
    change (tokens ([x61] ++ [x20] ++ [x62] ++ [x20] ++ [x61] ++ []) [[x61]; [x62]; [x61]]).
    apply tokens_word; [discriminate|auto|right; exists [x20]; eexists; split; [exact B|reflexivity]|].
    apply tokens_space; [exact B|].
    apply tokens_word; [discriminate|auto|right; exists [x20]; eexists; split; [exact B|reflexivity]|].
    apply tokens_space; [exact B|].
    apply tokens_word; [discriminate|auto|left; reflexivity|apply tokens_end].
  - repeat constructor; cbn; lia.
Qed.

(** The default options on four processors are usable for this text. *)
Definition ascii_lower (w : gostring) : gostring :=
  map (fun b => match b with x41 => x61 | x42 => x62 | x43 => x63 | _ => b end) w.
Example C78_case :
  w2v_usable ascii_lower (w2v_defaults 4) aba aba_words /\ glv_usable ascii_lower (glv_defaults 4) aba aba_words /\
  lxv_usable ascii_lower (lex_defaults 4) aba aba_words.
Proof.
  destruct (aba_readable 0) as (_ & HT & HE & HW).
  assert (HV : Z.of_nat (length (distinct aba_words)) < 2 ^ 26) by (vm_compute; reflexivity).
  destruct (C78_defaults ascii_lower aba aba_words 4 ltac:(lia) HT HE HW HV) as (A & B & C).
  split; [exact A|]. split; [apply B; discriminate|exact C].
Qed.

(** C79. GloVe with one goroutine: whatever the scheduler does, Train returns the same embedding,
    that of Iter passes of glove's update over the items in their order. *)
Theorem C79_glove_one_goroutine : forall lower rand flog fpow order o doc all g0, (forall m, Permutation (order m) m) ->
  glv_usable lower o doc all -> glv_Goroutines o = 1 -> glv_setup lower rand flog fpow order o doc = Ret g0 ->
  exists m sol,
    ofold (glove_train_item (glv_Initlr o) (Z.of_nat (dict_len (gl_dic g0)))) (concat (repeat (gl_items g0) (Z.to_nat (glv_Iter o))))
          (gl_param g0, gl_solver g0) = Ret (m, sol) /\
    forall g, glv_trained lower rand flog fpow order o doc g <-> g = Glv (gl_dic g0) m sol (gl_items g0).
Proof. intros. eapply RunOne.glv_sequential; eauto. Qed.
Print Assumptions C79_glove_one_goroutine.

(** C80. LexVec in memory with one goroutine and a text shorter than UpdateLRBatch: the same for
    every schedule, Iter passes over the text from left to right. *)
Theorem C80_lexvec_one_goroutine : forall lower rand flog fpow order o doc all next lr l0, (forall m, Permutation (order m) m) ->
  lxv_usable lower o doc all -> lex_Goroutines o = 1 -> lex_DocInMemory o = true -> Z.of_nat (length all) < lex_UpdateLRBatch o ->
  lxv_setup lower rand flog fpow order o doc = Ret l0 ->
  let d := c_dic (lx_corpus l0) in
  exists v,
    passes (lxv_trial rand (lx_samples l0)) (lxv_step o (lx_items l0) (Z.of_nat (dict_len d))) (Z.to_nat (lex_Iter o))
      (id_text lower (lex_ToLower o) (lex_MaxCount o) (lex_MinCount o) d all) (lxv_start next lr l0) = Ret v /\
    forall l, lxv_trained lower rand flog fpow order next lr o doc l <-> l = Lxv (lx_corpus l0) (lv_m v) (lx_samples l0) (lx_items l0).
Proof. intros. eapply RunOne.lxv_sequential; eauto. match goal with H : _ _ = true |- _ => rewrite H end. assumption. Qed.
Print Assumptions C80_lexvec_one_goroutine.

(** C80. word2vec likewise; if the sequential program panics (C29), so does every schedule. *)
Theorem C80_word2vec_one_goroutine : forall exp lower rand o doc all next lr w0,
  w2v_usable lower o doc all -> w2v_Goroutines o = 1 -> w2v_DocInMemory o = true -> Z.of_nat (length all) < w2v_UpdateLRBatch o ->
  w2v_setup lower rand o doc = Ret w0 ->
  match passes (w2v_trial rand (wv_samples w0)) (w2v_step (sigmoid (sig_table exp)) (wv_mod w0) (w2v_Window o) (w2v_Dim o)) (Z.to_nat (w2v_Iter o))
    (id_text lower (w2v_ToLower o) (w2v_MaxCount o) (w2v_MinCount o) (c_dic (wv_corpus w0)) all) (w2v_start next lr w0) with
  | Ret v => forall w, w2v_trained exp lower rand next lr o doc w <-> w = W2v (wv_corpus w0) (wv_m v) (wv_samples w0) (wv_mod w0) (wv_o v)
  | Err _ => False
  | Panic => forall w, ~ w2v_trained exp lower rand next lr o doc w
  end.
Proof. intros. eapply RunOne.w2v_sequential; eauto. match goal with H : _ _ = true |- _ => rewrite H end. assumption. Qed.
Print Assumptions C80_word2vec_one_goroutine.

(** C81. At every moment of every run the learning rate is a finite number between 0 and
    max(Initlr, MinLR), if it was so before Train (a fresh value has Initlr). *)
Definition rate_ok (init minlr lr : f64) : Prop :=
  is_fin lr = true /\ (0 <= f2r lr <= Rmax (f2r init) (f2r minlr))%R.

Theorem C81_lexvec_rate : forall lower rand flog fpow order o doc all l0 x next lr, (forall m, Permutation (order m) m) ->
  lxv_usable lower o doc all -> lxv_setup lower rand flog fpow order o doc = Ret l0 -> lxv_source lower o l0 = Ret x ->
  is_fin (lex_Initlr o) = true -> (0 <= f2r (lex_Initlr o))%R -> is_fin (lex_MinLR o) = true -> (0 <= f2r (lex_MinLR o))%R ->
  1 <= Z.of_nat (length all) <= 2 ^ 53 -> rate_ok (lex_Initlr o) (lex_MinLR o) lr ->
  forall l v, reaches (lxv_cfg o) (lxv_effects rand o l0) (Z.to_nat (lex_Iter o)) (fun _ => x) (lxv_start next lr l0) l v ->
  rate_ok (lex_Initlr o) (lex_MinLR o) (lv_lr v).
Proof.
  intros lower rand flog fpow order o doc all l0 x next lr HP HU HS Hx F1 P1 F2 P2 HL Hr l v HR.
  refine (proj2 (proj1 (RunModels.lxv_run lower rand flog fpow order o doc all HU HP l0 HS x Hx True _ _ _ _ l v HR)) I).
  - intros _. repeat split; cbn; auto; lia.
  - split; [|intros _; exact Hr]. apply (RunModels.lx_start_shape lower rand flog fpow order o doc all HU HP l0 HS).
Qed.
Print Assumptions C81_lexvec_rate.

Theorem C81_word2vec_rate : forall exp lower rand o doc all w0 x next lr,
  w2v_usable lower o doc all -> w2v_setup lower rand o doc = Ret w0 -> w2v_source lower o w0 = Ret x ->
  is_fin (w2v_Initlr o) = true -> (0 <= f2r (w2v_Initlr o))%R -> is_fin (w2v_MinLR o) = true -> (0 <= f2r (w2v_MinLR o))%R ->
  1 <= Z.of_nat (length all) <= 2 ^ 53 -> rate_ok (w2v_Initlr o) (w2v_MinLR o) lr ->
  forall l v, reaches (w2v_cfg o) (w2v_effects (sigmoid (sig_table exp)) rand o w0) (Z.to_nat (w2v_Iter o)) (fun _ => x) (w2v_start next lr w0) l v ->
  rate_ok (w2v_Initlr o) (w2v_MinLR o) (wv_lr v).
Proof.
  intros exp lower rand o doc all w0 x next lr HU HS Hx F1 P1 F2 P2 HL Hr l v HR.
  refine (proj2 (proj1 (RunW2v.w2v_run exp lower rand o doc all HU w0 HS x Hx True _ _ _ _ l v HR)) I).
  - intros _. repeat split; cbn; auto; lia.
  - split; [|intros _; exact Hr]. apply (RunW2v.w2_start_shape exp lower rand o doc all HU w0 HS).
Qed.
Print Assumptions C81_word2vec_rate.

(** Concrete options for C79 and C80: one goroutine, in memory, default batch of 100000 words. *)
Example C79_case : glv_usable ascii_lower (glv_new 1 [G_Dim 2]) aba aba_words /\ glv_Goroutines (glv_new 1 [G_Dim 2]) = 1.
Proof. split; [|reflexivity]. constructor; cbn -[Z.mul Z.pow]; auto using aba_readable; try lia; try (right; discriminate); try tauto; vm_compute; discriminate. Qed.

Example C80_case :
  let o := lex_new 1 [L_Dim 2; L_MinCount 0; L_DocInMemory] in let o' := w2v_new 1 [W_Dim 2; W_MinCount 0; W_DocInMemory; W_Iter 2] in
  lxv_usable ascii_lower o aba aba_words /\ lex_Goroutines o = 1 /\ lex_DocInMemory o = true /\ Z.of_nat (length aba_words) < lex_UpdateLRBatch o /\
  w2v_usable ascii_lower o' aba aba_words /\ w2v_Goroutines o' = 1 /\ w2v_DocInMemory o' = true /\ Z.of_nat (length aba_words) < w2v_UpdateLRBatch o'.
Proof.
  intros o o'. repeat (split; [|]); try reflexivity.
  - constructor; cbn -[Z.mul Z.pow]; auto using aba_readable; try lia; try tauto; vm_compute; (reflexivity || discriminate).
  - constructor; cbn -[Z.mul Z.pow]; auto using aba_readable; try lia; try tauto; vm_compute; (reflexivity || discriminate).
Qed.

(** The sequential program of C80 does something: after one pass over a b a the first component of
    the parameters of LexVec has moved. *)
Example C80_runs :
  let id := fun w : gostring => w in
  let o := lex_new 1 [L_Dim 1; L_MinCount 0; L_DocInMemory; L_Iter 1; L_Relation "co"] in
  let rand := fun _ : nat => fzero in
  match lxv_setup id rand (fun x => x) (fun x _ => x) (fun m => m) o aba with
  | Ret l0 => match passes (lxv_trial rand (lx_samples l0)) (lxv_step o (lx_items l0) (Z.of_nat (dict_len (c_dic (lx_corpus l0))))) 1
                [0; 1; 0]%nat (lxv_start 1 (lex_Initlr o) l0) with
              | Ret v => (List.existsb (fun p => negb (feq (fst p) (snd p))) (combine (m_array (lv_m v)) (m_array (lx_param l0)))) = true
              | _ => False end
  | _ => False end.
Proof. vm_compute. reflexivity. Qed.

(** C81: the default rates of both models satisfy the hypotheses. *)
Example C81_case : forall o, o = lex_defaults 4 -> is_fin (lex_Initlr o) = true /\ is_fin (lex_MinLR o) = true /\ (0 <= f2r (lex_Initlr o))%R /\ (0 <= f2r (lex_MinLR o))%R.
Proof.
  intros o ->. split; [reflexivity|]. split; [reflexivity|].
  assert (S1 : exists m e, fshow (lex_Initlr (lex_defaults 4)) = Some (Z.pos m, e)) by (vm_compute; do 2 eexists; reflexivity).
  assert (S2 : exists m e, fshow (lex_MinLR (lex_defaults 4)) = Some (Z.pos m, e)) by (vm_compute; do 2 eexists; reflexivity).
  destruct S1 as (m1 & e1 & S1), S2 as (m2 & e2 & S2).
  destruct (fshow_spec _ _ _ S1) as (_ & ->). destruct (fshow_spec _ _ _ S2) as (_ & ->).
  split; apply Rmult_le_pos; try (apply IZR_le; lia); apply Flocq.Core.Raux.bpow_ge_0.
Qed.
