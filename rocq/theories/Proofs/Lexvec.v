(** * LexVec: update and trainOne *)
From Verif.Lib Require Import Go F64 ListFacts Tac.
From Verif.Model Require Import Matrix Cells Encode Cooc ModelUtil Window Lexvec.
From Verif.Spec Require Import Rows Training Cells.
From Verif.Proofs Require Import Matrix Word2vec Cells Window.
Local Open Scope Z_scope.

Lemma diff_at dim rows a b : all_len dim rows -> (a < length rows)%nat -> (b < length rows)%nat ->
  cell_dot (of_rows dim rows) (Z.of_nat a) (Z.of_nat b) dim 0 fzero = Ret (dot (nth a rows []) (nth b rows [])).
Proof.
  intros H Ha Hb. change 0 with (Z.of_nat 0). rewrite (cell_dot_at dim) by (auto; lia).
  rewrite (dot_seq _ _ dim) by (apply all_len_nth; auto). reflexivity.
Qed.

Lemma self_row_length d x : length (self_row d x) = length x.
Proof. apply map_length. Qed.

Lemma lex_step_ok lr rows s dim : all_len dim rows -> (fst (fst s) < length rows)%nat -> (snd (fst s) < length rows)%nat ->
  all_len dim (lex_step lr rows s) /\ length (lex_step lr rows s) = length rows.
Proof.
  destruct s as [[a b] f]. cbn [fst snd]. intros H Ha Hb. unfold lex_step.
  destruct (Nat.eqb_spec a b) as [->|E].
  - split; [|apply upd_length]. apply all_len_upd; auto. rewrite self_row_length. apply all_len_nth; auto.
  - unfold upd2. rewrite !upd_length. split; [|reflexivity].
    pose proof (all_len_nth _ _ _ H Ha) as La. pose proof (all_len_nth _ _ _ H Hb) as Lb.
    apply all_len_upd; [|rewrite step_row_length; congruence].
    apply all_len_upd; [auto|rewrite step_row_length; congruence].
Qed.

Lemma update_lemma dim lr rows a b f : all_len dim rows -> (a < length rows)%nat -> (b < length rows)%nat ->
  lex_update (Z.of_nat dim) lr (Z.of_nat a) (Z.of_nat b) f (of_rows dim rows) = Ret (of_rows dim (lex_step lr rows (a, b, f))).
Proof.
  intros H Ha Hb. unfold lex_update. rewrite Nat2Z.id, diff_at by auto. cbn [obind].
  set (x := nth a rows []). set (y := nth b rows []).
  pose proof (all_len_nth _ _ _ H Ha) as La. pose proof (all_len_nth _ _ _ H Hb) as Lb.
  destruct (lex_step_ok lr rows (a, b, f) dim H Ha Hb) as (SO & SL).
  unfold lex_step in *. fold x y in SO, SL |- *. set (d := fmul (fsub (dot x y) f) lr) in *.
  change 0 with (Z.of_nat 0).
  destruct (Nat.eqb_spec a b) as [->|E].
  - destruct (pair_loop_self dim d b dim 0 rows H Ha ltac:(lia)) as (rows' & E' & A' & L' & V').
    rewrite E'. f_equal. f_equal. apply (rows_ext dim); auto; [congruence|].
    intros q j Hq Hj. rewrite V'. unfold inr. cbn [Nat.leb Nat.add]. destruct (Nat.ltb_spec j dim); [|lia]. cbn [andb].
    unfold at2. rewrite nth_upd. rewrite (Nat.eqb_sym b q). destruct (Nat.eqb_spec q b) as [->|]; [|reflexivity].
    destruct (Nat.ltb_spec b (length rows)); [|lia]. unfold self_row.
    set (g := fun a => fsub (fsub a (fmul d a)) (fmul d a)).
    change (nth j (map g x) fzero) with (nth j (map g x) fzero).
    rewrite (nth_indep (map g x) fzero (g fzero)) by (rewrite map_length; unfold x; lia).
    rewrite map_nth. reflexivity.
  - destruct (pair_loop_at dim d a b E dim 0 rows H Ha Hb ltac:(lia)) as (rows' & E' & A' & L' & V').
    rewrite E'. f_equal. f_equal. apply (rows_ext dim); auto; [congruence|].
    intros q j Hq Hj. rewrite V'. unfold inr. cbn [Nat.leb Nat.add]. destruct (Nat.ltb_spec j dim); [|lia]. cbn [andb].
    unfold upd2. match goal with |- _ = at2 (upd (upd _ _ ?u) _ ?v) _ _ => set (nu := u); set (nv := v) end.
    unfold at2. rewrite !nth_upd, upd_length.
    destruct (Nat.ltb_spec b (length rows)); [|lia]. destruct (Nat.ltb_spec a (length rows)); [|lia].
    destruct (Nat.eqb_spec q a) as [->|Na].
    + destruct (Nat.eqb_spec b a) as [Q|_]; [congruence|]. rewrite Nat.eqb_refl.
      cbn [andb]. unfold nu, step_row. rewrite nth_zipw by (unfold x, y; congruence || (rewrite La; auto)). reflexivity.
    + rewrite (Nat.eqb_sym b q). destruct (Nat.eqb_spec q b) as [->|Nb].
      * cbn [andb]. unfold nv, step_row. rewrite nth_zipw by (unfold x, y; congruence || (rewrite Lb; auto)). reflexivity.
      * destruct (Nat.eqb_spec a q) as [Q|_]; [congruence|]. reflexivity.
Qed.

Lemma fold_step_ok lr dim : forall steps rows, all_len dim rows ->
  Forall (fun s => (fst (fst s) < length rows)%nat /\ (snd (fst s) < length rows)%nat) steps ->
  all_len dim (fold_left (lex_step lr) steps rows) /\ length (fold_left (lex_step lr) steps rows) = length rows.
Proof.
  induction steps as [|s steps IH]; intros rows H HF; [auto|]. inversion HF as [|? ? [Ha Hb] HF']; subst. cbn [fold_left].
  destruct (lex_step_ok lr rows s dim H Ha Hb) as (A & L). destruct (IH (lex_step lr rows s) A) as (A' & L').
  - rewrite L. exact HF'.
  - split; [exact A'|congruence].
Qed.

Lemma fold_step_frame lr q : forall steps rows,
  (forall s, In s steps -> q <> fst (fst s) /\ q <> snd (fst s)) ->
  nth q (fold_left (lex_step lr) steps rows) [] = nth q rows [].
Proof.
  induction steps as [|[[a b] f] steps IH]; intros rows HF; [reflexivity|]. cbn [fold_left].
  rewrite IH by (intros s Hs; apply HF; right; exact Hs).
  destruct (HF (a, b, f) (or_introl eq_refl)) as (Na & Nb). cbn [fst snd] in Na, Nb. unfold lex_step, upd2.
  destruct (Nat.eqb_spec a b); rewrite !nth_upd; destruct (Nat.eqb_spec a q), (Nat.eqb_spec b q); try congruence; reflexivity.
Qed.

Lemma iter_lcg_add a b x : Nat.iter (a + b) lcg x = Nat.iter a lcg (Nat.iter b lcg x).
Proof. induction a as [|a IH]; [reflexivity|]. cbn [Nat.add]. change (Nat.iter (S (a + b)) lcg x) with (lcg (Nat.iter (a + b) lcg x)). rewrite IH. reflexivity. Qed.

Section TrainOne.
Variables (dim : nat) (lr : f64) (items : list (Z * f64)) (V : nat).
Hypothesis HV : 1 <= Z.of_nat V < 2 ^ 63.
Let val (a b : nat) := lookup0 items (encode_bigram (Z.of_nat a) (Z.of_nat b)).

Lemma wrap_nat a : (a < V)%nat -> wrap64 (Z.of_nat a) = Z.of_nat a.
Proof. intros. apply Z.mod_small. unfold two64. lia. Qed.

Lemma draw_lt next k : (draw next (Z.of_nat V) k < V)%nat.
Proof. unfold draw. pose proof (Z.mod_pos_bound (Nat.iter (S k) lcg next) (Z.of_nat V) ltac:(lia)). lia. Qed.

Lemma lex_negatives_lemma w : (w < V)%nat -> forall neg next rows, all_len dim rows -> length rows = (2 * V)%nat ->
  lex_negatives (Z.of_nat dim) lr items (Z.of_nat V) (Z.of_nat w) neg (next, of_rows dim rows) =
  Ret (Nat.iter neg lcg next,
       of_rows dim (fold_left (lex_step lr)
         (map (fun s => (w, (s + V)%nat, val w s)) (map (draw next (Z.of_nat V)) (seq 0 neg))) rows)).
Proof.
  intros Hw. induction neg as [|neg IH]; intros next rows H HL; [reflexivity|].
  cbn [lex_negatives fst snd]. destruct (draw_next next (Z.of_nat V) ltac:(lia)) as (E & HD). rewrite E. cbn [obind].
  rewrite Nat2Z.id in HD. set (s := draw next (Z.of_nat V) 0) in *.
  rewrite !wrap_nat by auto. replace (Z.of_nat s + Z.of_nat V) with (Z.of_nat (s + V)) by lia.
  rewrite update_lemma by (auto; lia). cbn [obind].
  destruct (lex_step_ok lr rows (w, (s + V)%nat, val w s) dim H ltac:(cbn; lia) ltac:(cbn; lia)) as (A & L).
  fold (val w s). rewrite IH by (auto; congruence). rewrite iter_lcg_S. cbn [seq map fold_left]. fold s.
  rewrite draws_shift. reflexivity.
Qed.

Variables (doc : list nat) (pos : nat).
Hypotheses (Hdoc : Forall (fun id => (id < V)%nat) doc) (Hpos : (pos < length doc)%nat).
Let w := nth pos doc 0%nat.
Let word c := nth (Z.to_nat c) doc 0%nat.

Lemma doc_lt k : (k < length doc)%nat -> (nth k doc 0%nat < V)%nat.
Proof. intros. rewrite Forall_forall in Hdoc. apply Hdoc, nth_In; auto. Qed.

Lemma lex_body_lemma neg c next rows : all_len dim rows -> length rows = (2 * V)%nat -> 0 <= c < Z.of_nat (length doc) ->
  lex_body (Z.of_nat dim) lr items (Z.of_nat V) (Z.of_nat neg) (map Z.of_nat doc) (Z.of_nat pos) c (next, of_rows dim rows) =
  Ret (Nat.iter neg lcg next, of_rows dim (fold_left (lex_step lr) (lex_steps val V neg w [word c] next) rows)).
Proof.
  intros H HL Hc. unfold lex_body. rewrite zindex_nat.
  assert (EZ : zindex (map Z.of_nat doc) c = nth_error (map Z.of_nat doc) (Z.to_nat c)).
  { rewrite <- zindex_nat. f_equal. lia. }
  rewrite EZ.
  rewrite !nth_error_map, !(nth_error_nth' _ 0%nat) by lia. cbn [option_map]. fold w. fold (word c).
  assert (Hw : (w < V)%nat) by (apply doc_lt; auto). assert (Hu : (word c < V)%nat) by (apply doc_lt; lia).
  rewrite !wrap_nat by auto. cbn [fst snd]. rewrite update_lemma by (auto; lia). cbn [obind]. rewrite Nat2Z.id. fold (val w (word c)).
  destruct (lex_step_ok lr rows (w, word c, val w (word c)) dim H ltac:(cbn; lia) ltac:(cbn; lia)) as (A & L).
  rewrite lex_negatives_lemma by (auto; congruence). cbn [lex_steps fold_left]. rewrite app_nil_r. reflexivity.
Qed.

Lemma lex_steps_lt neg : forall us next, Forall (fun u => (u < V)%nat) us -> (w < V)%nat ->
  Forall (fun s => (fst (fst s) < V)%nat /\ (snd (fst s) < 2 * V)%nat) (lex_steps val V neg w us next).
Proof.
  induction us as [|u us IH]; intros next HF Hw; [constructor|]. inversion HF; subst. cbn [lex_steps].
  constructor; [cbn; lia|]. apply Forall_app. split; [|apply IH; auto].
  apply Forall_forall. intros s Hs. apply in_map_iff in Hs. destruct Hs as (k & <- & Hk). apply in_map_iff in Hk.
  destruct Hk as (i & <- & _). cbn. pose proof (draw_lt next i). lia.
Qed.

Lemma lex_ofold neg : forall cs next rows, all_len dim rows -> length rows = (2 * V)%nat -> Forall (fun c => 0 <= c < Z.of_nat (length doc)) cs ->
  ofold (lex_body (Z.of_nat dim) lr items (Z.of_nat V) (Z.of_nat neg) (map Z.of_nat doc) (Z.of_nat pos)) cs (next, of_rows dim rows) =
  Ret (Nat.iter (length cs * neg) lcg next, of_rows dim (fold_left (lex_step lr) (lex_steps val V neg w (map word cs) next) rows)).
Proof.
  assert (Hw : (w < V)%nat) by (apply doc_lt; auto).
  induction cs as [|c cs IH]; intros next rows H HL HF; [reflexivity|]. inversion HF; subst. cbn [ofold].
  rewrite lex_body_lemma by auto. cbn [obind].
  destruct (fold_step_ok lr dim (lex_steps val V neg w [word c] next) rows H) as (A & L).
  { rewrite HL. eapply Forall_impl; [|apply lex_steps_lt; auto]. 2:{ constructor; [apply doc_lt; lia|constructor]. }
    intros s Hs. cbn beta in Hs. lia. }
  rewrite IH by (auto; congruence). cbn [map lex_steps fold_left length]. rewrite app_nil_r.
  rewrite fold_left_app. do 2 f_equal.
  clear. rewrite <- iter_lcg_add. f_equal. lia.
Qed.

Lemma train_one_lemma neg window next rows : 1 <= window < 2 ^ 63 -> all_len dim rows -> length rows = (2 * V)%nat ->
  let ctx := context (Z.of_nat pos) (window - lcg next mod window) (length doc) in
  lex_train_one (Z.of_nat dim) lr items (Z.of_nat V) window (Z.of_nat neg) (map Z.of_nat doc) (Z.of_nat pos) (next, of_rows dim rows) =
  Ret (Nat.iter (1 + length ctx * neg) lcg next,
       of_rows dim (fold_left (lex_step lr) (lex_steps val V neg w (map word ctx) (lcg next)) rows)).
Proof.
  intros Hwin H HL ctx. unfold lex_train_one. cbn [fst snd].
  destruct (draw_next next window Hwin) as (E & HD). rewrite E. cbn [obind]. rewrite map_length, windowed_context by lia.
  assert (EC : window - Z.of_nat (draw next window 0) = window - lcg next mod window).
  { change (draw next window 0) with (Z.to_nat (lcg next mod window)). pose proof (Z.mod_pos_bound (lcg next) window ltac:(lia)). lia. }
  rewrite EC. fold ctx. rewrite lex_ofold; auto.
  - do 2 f_equal. clear. apply iter_lcg_S.
  - apply Forall_forall. intros c Hc. apply context_In in Hc. lia.
Qed.
End TrainOne.
