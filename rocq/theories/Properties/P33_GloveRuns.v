(** * C94, C95: GloVe runs *)
From Coq Require Import Lia Reals Lra Permutation.
From Verif.Lib Require Import Go F64 F64Facts.
From Verif.Spec Require Import Rows Training Cells Sched Readable Words Runs Interleave Touches Race.
From Verif.Model Require Import Dictionary Reader Matrix Cells Encode Cooc Glove Options Train Sched Run Race.
From Verif.Proofs Require AdaGrad AdaStep Cells Glove Linear GloveRuns RaceRuns.
From Verif.Properties Require P23_Runs.
Local Open Scope Z_scope.

(** C95. GloVe training with any number of goroutines (a whole item being one step): the possible
    results are exactly those of training the items one after the other, in Iter passes each of which
    is an interleaving of the slices of the goroutines. [order] is the iteration order of the map of
    co-occurrences. *)
Theorem C95_glove_interleavings : forall lower rand flog fpow order o doc all g0 x, (forall m, Permutation (order m) m) ->
  glv_usable lower o doc all -> glv_setup lower rand flog fpow order o doc = Ret g0 -> glv_source o g0 = Ret x ->
  forall g, glv_trained lower rand flog fpow order o doc g <->
  exists passes m sol, length passes = Z.to_nat (glv_Iter o) /\ Forall (interleaves (parts x)) passes /\
    ofold (glove_train_item (glv_Initlr o) (Z.of_nat (dict_len (gl_dic g0)))) (concat (map (map snd) passes))
          (gl_param g0, gl_solver g0) = Ret (m, sol) /\
    g = Glv (gl_dic g0) m sol (gl_items g0).
Proof. intros lower rand flog fpow order o doc all g0 x HP HU HS Hx g. exact (GloveRuns.glv_interleavings lower rand flog fpow order o doc all g0 x HU HP HS Hx g). Qed.
Print Assumptions C95_glove_interleavings.

(** C95. In particular every pass handles every item exactly once. *)
Theorem C95_every_item_once : forall lower rand flog fpow order o doc all g0 x p, (forall m, Permutation (order m) m) ->
  glv_usable lower o doc all -> glv_setup lower rand flog fpow order o doc = Ret g0 -> glv_source o g0 = Ret x ->
  interleaves (parts x) p -> Permutation (map snd p) (gl_items g0).
Proof.
  intros lower rand flog fpow order o doc all g0 x p HP HU HS Hx HI.
  destruct (RunGlove.glv_chunks lower rand flog fpow order o doc all HU HP g0 HS x Hx) as (_ & Cx & _). rewrite <- Cx. apply Linear.interleaves_perm. exact HI.
Qed.
Print Assumptions C95_every_item_once.

(** C94. One AdaGrad update, components of the two vectors ([j] below the dimension): each component
    [a] of a row becomes a - s where s is NaN, or a number between -1 and 1 with the sign of the
    gradient [t] = error * other component. Accumulators that are NaN or at least 1 are all that ever
    occur (C45). There is no condition on the learning rate, the count or the weight. *)
Theorem C94_step : forall dim rows gs r1 r2 lr f coef m' g', r1 <> r2 ->
  all_len (S dim) rows -> all_len (S dim) gs -> length gs = length rows -> (r1 < length rows)%nat -> (r2 < length rows)%nat ->
  (forall r j q, 0 <= r < Z.of_nat (length gs) -> 0 <= j <= Z.of_nat dim -> cell (of_rows (S dim) gs) r j = Ret q -> isnan q = true \/ fge q (f_of_Z 1) = true) ->
  ada_train_one lr (Z.of_nat r1) (Z.of_nat r2) f coef (of_rows (S dim) rows, of_rows (S dim) gs) = Ret (m', g') ->
  forall r r' j, (r, r') = (r1, r2) \/ (r, r') = (r2, r1) -> (j < dim)%nat ->
  exists a b s, cell (of_rows (S dim) rows) (Z.of_nat r) (Z.of_nat j) = Ret a /\ cell (of_rows (S dim) rows) (Z.of_nat r') (Z.of_nat j) = Ret b /\
    cell m' (Z.of_nat r) (Z.of_nat j) = Ret (fsub a s) /\
    let t := fmul (glove_diff lr f coef (nth r1 rows []) (nth r2 rows [])) b in
    (isnan s = true \/ (is_fin s = true /\ is_fin t = true /\ Rabs (f2r s) <= 1 /\ 0 <= f2r s * f2r t)%R).
Proof.
  intros dim rows gs r1 r2 lr f coef m' g' Hne H Hg HL H1 H2 HA HR r r' j Hr Hj.
  rewrite (Glove.ada_lemma dim rows r1 r2 Hne H H1 H2 lr f coef gs Hg HL) in HR. set (d := glove_diff _ _ _ _ _) in *. injection HR as <- _.
  pose proof (Word2vec.all_len_nth _ _ _ H H1) as E1. pose proof (Word2vec.all_len_nth _ _ _ H H2) as E2.
  pose proof (Word2vec.all_len_nth _ _ r1 Hg ltac:(lia)) as E3. pose proof (Word2vec.all_len_nth _ _ r2 Hg ltac:(lia)) as E4.
  assert (AK : forall q, (q < length rows)%nat -> AdaGrad.acc_ok (nth j (nth q gs []) fzero)).
  { intros q Hq. apply (HA (Z.of_nat q) (Z.of_nat j)); try lia. apply (Cells.cell_at (S dim)); auto; lia. }
  destruct (Cells.upd2_ok (S dim) rows r1 r2 (ada_row d (nth r1 rows []) (nth r2 rows []) (nth r1 gs [])) (ada_row d (nth r2 rows []) (nth r1 rows []) (nth r2 gs [])) H) as (B1 & B2);
    [apply Glove.ada_row_length; auto|apply Glove.ada_row_length; auto|].
  assert (Lr : (r < length rows)%nat /\ (r' < length rows)%nat) by (destruct Hr as [Hr|Hr]; injection Hr as -> ->; auto). destruct Lr as (Lr & Lr').
  exists (Cells.at2 rows r j), (Cells.at2 rows r' j).
  exists (fdiv (fmul d (Cells.at2 rows r' j)) (fsqrt (fadd (nth j (nth r gs []) fzero) (fmul (fmul d (Cells.at2 rows r' j)) (fmul d (Cells.at2 rows r' j)))))).
  split; [apply (Cells.cell_at (S dim)); auto; lia|]. split; [apply (Cells.cell_at (S dim)); auto; lia|]. split.
  - rewrite (Cells.cell_at (S dim)) by (auto; lia). f_equal. rewrite (Cells.upd2_at (S dim)) by auto.
    destruct Hr as [Hr|Hr]; injection Hr as -> ->; rewrite Nat.eqb_refl; [|destruct (Nat.eqb_spec r2 r1); [lia|]];
      rewrite (Glove.ada_row_nth dim), (Glove.ada_acc_nth dim) by (auto; lia); destruct (Nat.ltb_spec j dim); try lia; reflexivity.
  - apply AdaStep.ada_quot. apply AK. exact Lr.
Qed.
Print Assumptions C94_step.

(** C94. So after a whole training with AdaGrad, by any number of goroutines (a whole item being one
    step), each component of row [r] of the vectors is NaN or of magnitude at most 1 plus the number
    of updates of that row: whatever the learning rate, the counts, Alpha and Xmax, it is never
    infinite. ([touches] counts the updates of a row by the items; 2^53 updates would take centuries.) *)
Theorem C94_adagrad_run : forall lower rand flog fpow order o doc all g0 x g, (forall m, Permutation (order m) m) ->
  (forall k, is_fin (rand k) = true /\ (0 <= f2r (rand k) < 1)%R) ->
  glv_usable lower o doc all -> 1 <= glv_Dim o <= 2 ^ 53 -> glv_SolverType o = "adagrad"%string ->
  glv_setup lower rand flog fpow order o doc = Ret g0 -> glv_source o g0 = Ret x ->
  let V := dict_len (gl_dic g0) in let updates r := Z.max 0 (glv_Iter o) * Z.of_nat (touches V (gl_items g0) r) in
  (forall r, updates r < 2 ^ 53) ->
  glv_trained lower rand flog fpow order o doc g ->
  forall r j, (r < 2 * V)%nat -> 0 <= j < glv_Dim o ->
  exists a, cell (gl_param g) (Z.of_nat r) j = Ret a /\ (isnan a = true \/ (is_fin a = true /\ (Rabs (f2r a) <= IZR (1 + updates r))%R)).
Proof.
  intros lower rand flog fpow order o doc all g0 x g HP HR HU HD HT HS Hx V updates HB Hg r j Hr Hj.
  assert (UE : forall q, Z.of_nat (Z.to_nat (glv_Iter o) * touches V (gl_items g0) q) = updates q).
  { intros q. unfold updates. rewrite Nat2Z.inj_mul. f_equal. lia. }
  destruct (GloveRuns.glv_adagrad_bound lower rand flog fpow order o doc all g0 x HU HP HS Hx g HR HT HD) as (rows & -> & A & L & W); [|exact Hg|].
  { intros q. fold V. rewrite UE. specialize (HB q). lia. }
  exists (Cells.at2 rows r (Z.to_nat j)). fold V in L, W. split.
  - rewrite <- (Z2Nat.id j) at 1 by lia. apply Cells.cell_at; auto; lia.
  - specialize (W r (Z.to_nat j) ltac:(lia) ltac:(lia)). cbv beta in W. rewrite UE in W. exact W.
Qed.
Print Assumptions C94_adagrad_run.

(** C94. The bound needs the updates not to overlap: when the goroutines are interleaved statement by
    statement (C82), a component can move by 100 in two updates, because the second goroutine's write
    of the accumulator undoes the first one's. *)
Theorem C94_races_exceed : forall sig,
  let n := f_of_Z in let a := Item 0 0 (n (-99)) (n 1) in let b := Item 0 1 (n 1) (n 1) in
  let m0 := SMem (of_rows 2 (repeat [n 1; n 0] 4)) (of_rows 2 (repeat [n 1; n 1] 4)) 1 (n 0) in
  let work := p_items true (n 1) 1 2 in
  touches 2 [a; b] 0 = 3%nat /\
  exists k s y, sys_runs sig k (Sys m0 [work [a]; work [b]]) s /\ forallb pdone (y_threads s) = true /\
    cell (sm_p (y_mem s)) 0 0 = Ret y /\ flt y (n (-98)) = true.
Proof.
  intros sig n a b m0 work. split; [reflexivity|].
  pose (sched := (repeat 1 11 ++ repeat 0 12 ++ repeat 1 1 ++ repeat 0 60 ++ repeat 1 60)%nat).
  assert (E : match RaceRuns.follow sig sched (Sys m0 [work [a]; work [b]]) with
              | Ret s => forallb pdone (y_threads s) && match cell (sm_p (y_mem s)) 0 0 with Ret y => flt y (n (-98)) | _ => false end
              | _ => false end = true) by (vm_compute; reflexivity).
  destruct (RaceRuns.follow sig sched (Sys m0 [work [a]; work [b]])) as [s|e|] eqn:EF; [|discriminate E|discriminate E].
  destruct (RaceRuns.follow_runs sig _ _ _ EF) as (k & HR). apply andb_prop in E. destruct E as (E1 & E2).
  destruct (cell (sm_p (y_mem s)) 0 0) as [y|e|] eqn:EC; [|discriminate E2|discriminate E2].
  exists k, s, y. split; [exact HR|]. split; [exact E1|]. split; [exact EC|exact E2].
Qed.
Print Assumptions C94_races_exceed.

(** The step of a component that would move by 12 with plain gradient descent: 12 / sqrt(1 + 144). *)
Example C94_case : let n z := f_of_Z z in
  match ada_train_one (f_dec 5 1) 0 1 (n 0) (n 1) (of_rows 2 [[n 2; n 1]; [n 3; n 1]], of_rows 2 [[n 1; n 1]; [n 1; n 1]]) with
  | Ret (m, _) => match cell m 0 0 with Ret a => fgt a (n 1) && flt a (f_dec 101 2) | _ => false end
  | _ => false end = true.
Proof. vm_compute. reflexivity. Qed.

(** A text and options meeting the hypotheses of C94 and C95, with two goroutines and several items. *)
Example C94_run_case : let o := glv_new 2 [G_Dim 2; G_Iter 1; G_Goroutines 2; G_Solver "adagrad"] in
  let id := fun w : gostring => w in let rand := fun _ : nat => f_dec 25 2 in
  glv_usable id o P23_Runs.aba P23_Runs.aba_words /\ glv_SolverType o = "adagrad"%string /\
  match glv_setup id rand (fun x => x) (fun x _ => x) (fun m => m) o P23_Runs.aba with
  | Ret g0 => dict_len (gl_dic g0) = 2%nat /\ map (fun r => touches 2 (gl_items g0) r) (seq 0 4) = [3; 1; 3; 1]%nat /\
              match glv_source o g0 with Ret x => map (map (fun it => (it_l1 it, it_l2 it))) (parts x) = [[(0, 1)]; [(0, 0)]] | _ => False end
  | _ => False end.
Proof.
  intros o id rand. split; [|split; [reflexivity|]].
  - constructor; cbn -[Z.mul Z.pow]; auto using P23_Runs.aba_readable; try lia; try (right; discriminate); try tauto.
  - vm_compute. auto.
Qed.

Example C95_case : interleaves [[1; 2]; [3]]%nat [(0, 1); (1, 3); (0, 2)]%nat /\ interleaves [[1; 2]; [3]]%nat [(1, 3); (0, 1); (0, 2)]%nat.
Proof.
  split; (split; [repeat constructor|]); intros [|[|i]] d H; cbn in H; try (injection H as <-; reflexivity); destruct i; discriminate H.
Qed.
