From Coq Require Import Lia.
From Verif.Lib Require Import Go F64 ListFacts Tac.
From Verif.Spec Require Import Words Rows Training Saved.
From Verif.Model Require Import Dictionary Corpus Matrix Cells Word2vec Options Train FmtFloat Vector.
From Verif.Proofs Require Import Matrix Word2vec Cells Dictionary Train.
Local Open Scope Z_scope.

(** ** WordVector *)
Section Fill.
Variables (g : nat -> f64) (get : Z -> outcome f64) (dim : nat).
Hypothesis G : forall j, (j < dim)%nat -> get (Z.of_nat j) = Ret (g j).

Lemma vec_loop_spec n : forall i rest, length rest = n -> (i + n = dim)%nat ->
  vec_loop get n (Z.of_nat i) (map g (seq 0 i) ++ rest) = Ret (map g (seq 0 dim)).
Proof.
  induction n as [|n IH]; intros i rest L E; cbn [vec_loop].
  - destruct rest; [|discriminate]. rewrite app_nil_r. replace i with dim by lia. reflexivity.
  - destruct rest as [|x rest]; [discriminate|]. rewrite G by lia. cbn [obind].
    assert (Li : length (map g (seq 0 i)) = i) by (rewrite map_length, seq_length; reflexivity).
    rewrite zindex_nat, nth_error_app2 by lia. rewrite Li, Nat.sub_diag. cbn [nth_error].
    rewrite Nat2Z.id.
    pose proof (upd_app_mid (map g (seq 0 i)) x (g i) rest) as U. rewrite Li in U. rewrite U.
    replace (Z.of_nat i + 1) with (Z.of_nat (S i)) by lia.
    replace (map g (seq 0 i) ++ g i :: rest) with (map g (seq 0 (S i)) ++ rest).
    + apply IH; [cbn in L; lia|lia].
    + rewrite seq_S, map_app, <- app_assoc. reflexivity.
Qed.

Lemma vec_loop_row row : length row = dim -> vec_loop get dim 0 row = Ret (map g (seq 0 dim)).
Proof. intros L. exact (vec_loop_spec dim 0%nat row L eq_refl). Qed.
End Fill.

Lemma vec_rows_spec (row : nat -> list f64) fn col : (forall q, length (row q) = col) ->
  forall n done, all_len col done ->
  (forall q, (length done <= q < length done + n)%nat -> fn (Z.of_nat q) (repeat fzero col) = Ret (row q)) ->
  vec_rows fn n (Z.of_nat (length done)) (of_rows col (done ++ repeat (repeat fzero col) n)) =
  Ret (of_rows col (done ++ map row (seq (length done) n))).
Proof.
  intros RL. induction n as [|n IH]; intros done D F; cbn [vec_rows repeat seq map].
  - reflexivity.
  - assert (A : all_len col (done ++ repeat fzero col :: repeat (repeat fzero col) n)).
    { apply all_len_app; auto. constructor; [apply repeat_length|]. apply all_len_zero. }
    rewrite of_rows_slice by (auto; rewrite app_length; cbn; lia). cbn [obind].
    rewrite app_nth2 by lia. rewrite Nat.sub_diag. cbn [nth]. rewrite F by lia. cbn [obind].
    rewrite of_rows_store; [|auto|rewrite app_length; cbn; lia|auto]. rewrite upd_app_mid.
    assert (L1 : length (done ++ [row (length done)]) = S (length done)) by (rewrite app_length; cbn; lia).
    replace (Z.of_nat (length done) + 1) with (Z.of_nat (length (done ++ [row (length done)]))) by lia.
    replace (done ++ row (length done) :: repeat (repeat fzero col) n) with ((done ++ [row (length done)]) ++ repeat (repeat fzero col) n) by (rewrite <- app_assoc; reflexivity).
    rewrite IH.
    + rewrite L1, <- app_assoc. reflexivity.
    + apply all_len_app; auto. constructor; auto.
    + intros q Hq. apply F. lia.
Qed.

Lemma vec_matrix_spec V dim get (g : nat -> nat -> f64) :
  (forall q j, (q < V)%nat -> (j < dim)%nat -> get (Z.of_nat q) (Z.of_nat j) = Ret (g q j)) ->
  vec_matrix (Z.of_nat V) (Z.of_nat dim) get = Ret (of_rows dim (map (fun q => map (g q) (seq 0 dim)) (seq 0 V))).
Proof.
  intros H. unfold vec_matrix. destruct (Z.ltb_spec (Z.of_nat V * Z.of_nat dim) 0); [nia|]. rewrite !Nat2Z.id.
  replace (Mat _ _ _) with (of_rows dim ([] ++ repeat (repeat fzero dim) V)).
  - apply (vec_rows_spec (fun q => map (g q) (seq 0 dim)) (fun r => vec_loop (get r) dim 0) dim) with (done := []).
    + intros q. rewrite map_length, seq_length. reflexivity.
    + constructor.
    + intros q Hq. apply vec_loop_row; [|apply repeat_length]. intros j Hj. apply H; cbn in Hq; lia.
  - unfold of_rows. cbn [app]. rewrite concat_zeros, repeat_length. f_equal. f_equal. nia.
Qed.

Definition table (V dim : nat) (g : nat -> nat -> f64) : list (list f64) := map (fun q => map (g q) (seq 0 dim)) (seq 0 V).
Lemma table_ok V dim g : length (table V dim g) = V /\ all_len dim (table V dim g) /\
  forall q j, (q < V)%nat -> (j < dim)%nat -> nth j (nth q (table V dim g) []) fzero = g q j.
Proof.
  unfold table. split; [rewrite map_length, seq_length; reflexivity|]. split.
  - apply Forall_forall. intros r Hr. apply in_map_iff in Hr. destruct Hr as (q & <- & _). rewrite map_length, seq_length. reflexivity.
  - intros q j Hq Hj.
    rewrite (nth_indep _ [] (map (g 0%nat) (seq 0 dim))) by (rewrite map_length, seq_length; auto).
    rewrite (map_nth (fun q => map (g q) (seq 0 dim)) (seq 0 V) 0%nat q). rewrite seq_nth by auto.
    rewrite (nth_indep _ fzero (g (0 + q)%nat 0%nat)) by (rewrite map_length, seq_length; auto).
    rewrite map_nth, seq_nth by auto. reflexivity.
Qed.

(** The three models. *)
Lemma w2v_word_vector_spec o w typ V dim rows : dict_len (c_dic (wv_corpus w)) = V -> w2v_Dim o = Z.of_nat dim ->
  wv_param w = of_rows dim rows -> all_len dim rows -> length rows = V ->
  match wv_opt w with
  | NS ctx _ => forall crows, ctx = of_rows dim crows -> all_len dim crows -> length crows = V ->
      w2v_word_vector o w typ = Ret (of_rows dim (table V dim (fun q j =>
        if String.eqb typ agg_type then fadd (at2 rows q j) (at2 crows q j) else at2 rows q j)))
  | HS _ _ _ => w2v_word_vector o w typ = Ret (of_rows dim (table V dim (at2 rows)))
  end.
Proof.
  intros EV ED EP A L. unfold w2v_word_vector. rewrite EV, ED, EP. destruct (wv_opt w) as [ctx k|h set depth].
  - intros crows -> Ac Lc. destruct (String.eqb typ agg_type); apply vec_matrix_spec; intros q j Hq Hj; unfold two_cells, one_cell.
    + rewrite !cell_at by (auto; lia). reflexivity.
    + apply cell_at; auto; lia.
  - apply vec_matrix_spec. intros q j Hq Hj. apply cell_at; auto; lia.
Qed.

Lemma glv_word_vector_spec o g typ V dim rows : dict_len (gl_dic g) = V -> glv_Dim o = Z.of_nat dim ->
  gl_param g = of_rows (S dim) rows -> all_len (S dim) rows -> length rows = (2 * V)%nat ->
  glv_word_vector o g typ = Ret (of_rows dim (table V dim (fun q j =>
        if String.eqb typ agg_type then at2 rows q j else fadd (at2 rows q j) (at2 rows (q + V) j)))).
Proof.
  intros EV ED EP A L. unfold glv_word_vector. rewrite EV, ED, EP.
  destruct (String.eqb typ agg_type); apply vec_matrix_spec; intros q j Hq Hj; unfold two_cells, one_cell.
  - apply cell_at; auto; lia.
  - rewrite <- Nat2Z.inj_add. rewrite !cell_at by (auto; lia). reflexivity.
Qed.

Lemma lxv_word_vector_spec o l typ V dim rows : dict_len (c_dic (lx_corpus l)) = V -> lex_Dim o = Z.of_nat dim ->
  lx_param l = of_rows dim rows -> all_len dim rows -> length rows = (2 * V)%nat ->
  lxv_word_vector o l typ = Ret (of_rows dim (table V dim (fun q j =>
        if String.eqb typ agg_type then at2 rows q j else fadd (at2 rows q j) (at2 rows (q + V) j)))).
Proof.
  intros EV ED EP A L. unfold lxv_word_vector. rewrite EV, ED, EP.
  destruct (String.eqb typ agg_type); apply vec_matrix_spec; intros q j Hq Hj; unfold two_cells, one_cell.
  - apply cell_at; auto; lia.
  - rewrite <- Nat2Z.inj_add. rewrite !cell_at by (auto; lia). reflexivity.
Qed.

(** ** Save *)
Lemma skipn_nth (l : list f64) : forall k, (k < length l)%nat -> skipn k l = nth k l fzero :: skipn (S k) l.
Proof. induction l as [|y l IHl]; intros k Hk; [cbn in Hk; lia|]. destruct k; [reflexivity|]. cbn [nth]. change (skipn (S k) (y :: l)) with (skipn k l). rewrite IHl by (cbn in Hk; lia). reflexivity. Qed.

Lemma save_cells_spec col rows q : all_len col rows -> (q < length rows)%nat ->
  forall n j buf, (j + n = col)%nat ->
  save_cells (of_rows col rows) (Z.of_nat q) n (Z.of_nat j) buf =
  Ret (buf ++ concat (map (fun x => fmt_f x ++ bs " ") (skipn j (nth q rows [])))).
Proof.
  intros A Hq. assert (Lq : length (nth q rows []) = col) by (apply all_len_nth; auto).
  induction n as [|n IH]; intros j buf E; cbn [save_cells].
  - rewrite skipn_all2 by lia. cbn. rewrite app_nil_r. reflexivity.
  - rewrite cell_at by (auto; lia). cbn [obind]. replace (Z.of_nat j + 1) with (Z.of_nat (S j)) by lia.
    rewrite IH by lia. f_equal. rewrite <- app_assoc. f_equal.
    rewrite (skipn_nth (nth q rows []) j) by lia. reflexivity.
Qed.

Lemma saved_text_cons w ws r rs : saved_text (w :: ws) (r :: rs) = saved_line w r ++ saved_text ws rs.
Proof. reflexivity. Qed.

Lemma skipn_nth_any {A} (l : list A) x : forall k, nth_error l k = Some x -> skipn k l = x :: skipn (S k) l.
Proof. induction l as [|y l IHl]; intros [|k] Hk; try discriminate; [injection Hk as ->; reflexivity|]. cbn in Hk. apply IHl in Hk. exact Hk. Qed.

Lemma save_rows_spec ws col rows verbose lb : all_len col rows -> length rows = length (distinct ws) ->
  verbose = false \/ lb <> 0 ->
  forall n i buf, (i + n = length rows)%nat ->
  save_rows (dict_add dict_new ws) (of_rows col rows) verbose lb n (Z.of_nat i) buf =
  Ret (buf ++ saved_text (skipn i (distinct ws)) (skipn i rows)).
Proof.
  intros A L Hv. induction n as [|n IH]; intros i buf E; cbn [save_rows].
  - rewrite !skipn_all2 by lia. cbn. rewrite app_nil_r. reflexivity.
  - destruct (repr_word_lt _ _ (dict_repr_of ws) i) as (w & Ew & ->); [lia|]. cbn [obind].
    assert (Ec : Z.to_nat (m_col (of_rows col rows)) = col) by (cbn [m_col of_rows]; apply Nat2Z.id). rewrite Ec.
    change 0 with (Z.of_nat 0) at 1. rewrite (save_cells_spec col rows i A) by lia. cbn [obind].
    replace (verbose && (lb =? 0)) with false by (destruct Hv as [->|Hv]; [reflexivity|]; destruct (Z.eqb_spec lb 0); [lia|]; destruct verbose; reflexivity).
    replace (Z.of_nat i + 1) with (Z.of_nat (S i)) by lia. rewrite IH by lia. f_equal.
    rewrite (skipn_nth_any _ _ _ Ew). rewrite (skipn_nth_any rows (nth i rows []) i) by (apply nth_error_nth'; lia).
    rewrite saved_text_cons. unfold saved_line, newline. cbn [skipn]. rewrite <- !app_assoc. reflexivity.
Qed.

Lemma save_rows_all ws col rows verbose lb : all_len col rows -> length rows = length (distinct ws) ->
  verbose = false \/ lb <> 0 ->
  save_rows (dict_add dict_new ws) (of_rows col rows) verbose lb (dict_len (dict_add dict_new ws)) 0 [] =
  Ret (saved_text (distinct ws) rows).
Proof.
  intros A L Hv. rewrite (repr_len _ _ (dict_repr_of ws)).
  exact (save_rows_spec ws col rows verbose lb A L Hv (length (distinct ws)) 0%nat [] (eq_sym L)).
Qed.

Lemma save_ok {W} (wr : writer W) cut ws col rows verbose lb st : all_len col rows -> length rows = length (distinct ws) ->
  verbose = false \/ lb <> 0 ->
  save wr cut (dict_add dict_new ws) (of_rows col rows) verbose lb st =
  (bufio_write wr (cut (saved_text (distinct ws) rows)) st, Ret tt).
Proof.
  intros A L Hv. unfold save. rewrite (save_rows_all ws col rows) by auto. rewrite (repr_len _ _ (dict_repr_of ws)).
  cbn [m_row of_rows]. rewrite L, Z.eqb_refl. reflexivity.
Qed.

Lemma save_mismatch {W} (wr : writer W) cut ws m verbose lb st : m_row m <> Z.of_nat (length (distinct ws)) ->
  exists e, save wr cut (dict_add dict_new ws) m verbose lb st = (st, Err e).
Proof.
  intros H. unfold save. rewrite (repr_len _ _ (dict_repr_of ws)). destruct (Z.eqb_spec (Z.of_nat (length (distinct ws))) (m_row m)); [lia|].
  cbn [negb]. eauto.
Qed.

Lemma save_log_zero {W} (wr : writer W) cut ws col rows st : all_len col rows -> length rows = length (distinct ws) -> ws <> [] ->
  save wr cut (dict_add dict_new ws) (of_rows col rows) true 0 st = (st, Panic).
Proof.
  intros A L Hw. unfold save. rewrite (repr_len _ _ (dict_repr_of ws)). cbn [m_row of_rows]. rewrite L, Z.eqb_refl. cbn [negb].
  destruct (length (distinct ws)) as [|n] eqn:El.
  { destruct ws; [congruence|]. discriminate El. }
  cbn [save_rows]. destruct (repr_word_lt _ _ (dict_repr_of ws) 0) as (w & _ & Ew); [lia|]. cbn [Z.of_nat] in Ew. rewrite Ew. cbn [obind].
  assert (Ec : Z.to_nat (m_col (of_rows col rows)) = col) by (cbn [m_col of_rows]; apply Nat2Z.id). rewrite Ec.
  pose proof (save_cells_spec col rows 0 A ltac:(lia) col 0%nat ([] ++ w ++ bs " ") ltac:(lia)) as S. cbn [Z.of_nat] in S. rewrite S. reflexivity.
Qed.

Lemma bufio_good : forall ps st, bufio_write good_writer ps st = st ++ concat ps.
Proof.
  induction ps as [|p ps IH]; intros st; cbn [bufio_write concat]; [rewrite app_nil_r; reflexivity|].
  unfold good_writer at 1. cbn [orb]. rewrite Z.ltb_irrefl, IH, app_assoc. reflexivity.
Qed.

Lemma bufio_full n : forall ps st, (length st <= n)%nat -> bufio_write (full_writer n) ps st = firstn n (st ++ concat ps).
Proof.
  induction ps as [|p ps IH]; intros st H; cbn [bufio_write concat]; [rewrite app_nil_r, firstn_all2; auto|].
  unfold full_writer at 1. set (q := firstn (n - length st) p). destruct (Nat.ltb_spec (length q) (length p)) as [Lt|Ge]; cbn [orb].
  - assert (length q = (n - length st)%nat) by (unfold q in *; rewrite firstn_length in *; lia).
    rewrite firstn_app, firstn_all2 by lia. f_equal. rewrite firstn_app.
    replace (n - length st - length p)%nat with 0%nat by lia. rewrite firstn_O, app_nil_r. reflexivity.
  - assert (q = p). { unfold q in *. rewrite firstn_length in Ge. apply firstn_all2. lia. }
    replace (Z.of_nat (length q) <? Z.of_nat (length p)) with false by (symmetry; apply Z.ltb_ge; lia). rewrite H0.
    rewrite IH. 2: { unfold q in Ge. rewrite firstn_length in Ge. rewrite app_length. lia. }
    rewrite <- app_assoc. reflexivity.
Qed.

Lemma bufio_logged {W} (wr : writer W) : forall ps st, exists st' k,
  bufio_write (logged wr) ps st = (st', snd st ++ concat (firstn k ps)) /\ (~ failing wr -> (length ps <= k)%nat).
Proof.
  induction ps as [|p ps IH]; intros st; cbn [bufio_write].
  - exists (fst st), 0%nat. cbn. rewrite app_nil_r. destruct st; auto.
  - unfold logged at 1. destruct (wr (fst st) p) as [s (n, e)] eqn:E.
    destruct (e || (n <? Z.of_nat (length p))) eqn:C.
    + exists s, 1%nat. cbn. rewrite app_nil_r. split; [reflexivity|]. intros NF. exfalso. apply NF. exists (fst st), p. rewrite E.
      apply orb_prop in C. destruct C as [->|C]; [auto|]. right. apply Z.ltb_lt. auto.
    + destruct (IH (s, snd st ++ p)) as (st' & k & Eq & NF). exists st', (S k). rewrite Eq. cbn [snd firstn concat length].
      rewrite app_assoc. split; [reflexivity|]. intros N. specialize (NF N). lia.
Qed.
