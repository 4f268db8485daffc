(** A goroutine that runs alone computes what the sequential models say. *)
From Coq Require Import Lia.
From Verif.Lib Require Import Go F64 ListFacts Tac.
From Verif.Model Require Import ModelUtil Encode Matrix Cells Window Subsample Sigmoid Word2vec Glove Lexvec Options Train Run Race.
From Verif.Spec Require Import Rows Training Cells Sequential OneGoroutine Race.
From Verif.Proofs Require Import Matrix Word2vec Cells ModelUtil AdaGrad.
Local Open Scope Z_scope.

Section Alone.
Variables (sig : f64 -> outcome f64) (rand : nat -> f64).
Notation prun := (prun sig rand).

Lemma obind_assoc {A B C} (o : outcome A) (f : A -> outcome B) (g : B -> outcome C) : obind (obind o f) g = obind o (fun x => obind (f x) g).
Proof. destruct o; reflexivity. Qed.
Lemma obind_ext {A B} (o : outcome A) (f g : A -> outcome B) : (forall x, o = Ret x -> f x = g x) -> obind o f = obind o g.
Proof. destruct o; cbn; auto. Qed.

Lemma prun_bind {R S} (f : R -> prog S) (p : prog R) : forall k m,
  prun (pbind p f) k m = obind (prun p k m) (fun '(k', m', r) => prun (f r) k' m').
Proof.
  induction p as [r| |g row q IH|g row i q IH|g row i x q IH|q IH|z q IH|q IH|q IH|y q IH]; intros k m; cbn [pbind Race.prun]; auto;
    rewrite ?obind_assoc; auto; apply obind_ext; intros; auto.
Qed.

Lemma prun_next v k m : prun (p_next_random v) k m =
  let '(n', o) := next_random (sm_next m) v in obind o (fun r => Ret (k, SMem (sm_p m) (sm_g m) n' (sm_lr m), r)).
Proof. unfold p_next_random, next_random. cbn -[W64 Z.modulo]. destruct (v mod W64 =? 0); reflexivity. Qed.

Lemma prun_sub g row i t k m : prun (p_sub g row i t) k m = obind (sub_cell (sm_get m g) row i t) (fun a => Ret (k, sm_set m g a, tt)).
Proof. unfold p_sub, sub_cell. cbn. rewrite obind_assoc. reflexivity. Qed.
Lemma prun_add g row i t k m : prun (p_add g row i t) k m = obind (add_cell (sm_get m g) row i t) (fun a => Ret (k, sm_set m g a, tt)).
Proof. unfold p_add, add_cell. cbn. rewrite obind_assoc. reflexivity. Qed.

Lemma prun_dot l1 l2 k m : forall n i acc, prun (p_dot l1 l2 n i acc) k m = obind (cell_dot (sm_p m) l1 l2 n i acc) (fun s => Ret (k, m, s)).
Proof.
  induction n as [|n IH]; intros i acc; [reflexivity|]. cbn [p_dot Race.prun cell_dot]. rewrite ?obind_assoc.
  apply obind_ext; intros a _. rewrite ?obind_assoc. apply obind_ext; intros b _. apply IH.
Qed.

Lemma prun_pairs d l1 l2 k g nx lr : forall n i P, prun (p_pairs d l1 l2 n i) k (SMem P g nx lr) =
  obind (pair_loop d l1 l2 n i P) (fun P' => Ret (k, SMem P' g nx lr, tt)).
Proof.
  induction n as [|n IH]; intros i P; [reflexivity|]. cbn [p_pairs Race.prun pair_loop]. rewrite ?obind_assoc.
  apply obind_ext; intros b _. cbn [Race.prun]. rewrite ?obind_assoc. apply obind_ext; intros a _.
  rewrite prun_bind, prun_sub, ?obind_assoc. apply obind_ext; intros P1 _. cbn [obind]. rewrite prun_bind, prun_sub, ?obind_assoc.
  apply obind_ext; intros P2 _. cbn [obind]. apply IH.
Qed.

(** ** GloVe *)
Lemma prun_sgd lr0 dim l1 l2 f coef k P g nx lr : (forall v, mat_slice P l1 = Ret v -> Z.of_nat (length v) = dim + 1) ->
  prun (p_sgd lr0 dim l1 l2 f coef) k (SMem P g nx lr) = obind (sgd_train_one lr0 l1 l2 f coef P) (fun P' => Ret (k, SMem P' g nx lr, tt)).
Proof.
  intros HL. unfold p_sgd, sgd_train_one. cbn [Race.prun sm_get sm_p]. rewrite ?obind_assoc. apply obind_ext; intros v HV.
  rewrite ?obind_assoc. apply obind_ext; intros _ _. rewrite (HL v HV). replace (dim + 1 - 1) with dim by lia. cbn zeta.
  rewrite prun_bind, prun_dot, ?obind_assoc. cbn [sm_p]. apply obind_ext; intros s _. cbn [obind Race.prun sm_get sm_p].
  rewrite ?obind_assoc. apply obind_ext; intros b1 _. rewrite ?obind_assoc. apply obind_ext; intros b2 _.
  rewrite prun_bind, prun_pairs, ?obind_assoc. apply obind_ext; intros P1 _. cbn [obind].
  rewrite prun_bind, prun_sub, ?obind_assoc. apply obind_ext; intros P2 _. cbn [obind]. rewrite prun_sub. reflexivity.
Qed.

Lemma prun_ada_loop d l1 l2 k nx lr : forall n i P g, prun (p_ada_loop d l1 l2 n i) k (SMem P g nx lr) =
  obind (ada_loop d l1 l2 n i P g) (fun '(P', g') => Ret (k, SMem P' g' nx lr, tt)).
Proof.
  induction n as [|n IH]; intros i P g; [reflexivity|]. cbn [p_ada_loop Race.prun ada_loop sm_get sm_p]. rewrite ?obind_assoc.
  apply obind_ext; intros b _. rewrite ?obind_assoc. apply obind_ext; intros a _.
  rewrite prun_bind, prun_add, ?obind_assoc. apply obind_ext; intros g1 _. cbn [obind].
  rewrite prun_bind, prun_add, ?obind_assoc. apply obind_ext; intros g2 _. cbn [obind Race.prun sm_get sm_set sm_g sm_p sm_next sm_lr].
  rewrite ?obind_assoc. apply obind_ext; intros q1 _. rewrite ?obind_assoc. apply obind_ext; intros q2 _.
  rewrite prun_bind, prun_sub, ?obind_assoc. apply obind_ext; intros P1 _. cbn [obind].
  rewrite prun_bind, prun_sub, ?obind_assoc. apply obind_ext; intros P2 _. cbn [obind]. apply IH.
Qed.

Lemma prun_ada lr0 dim l1 l2 f coef k P g nx lr : (forall v, mat_slice P l1 = Ret v -> Z.of_nat (length v) = dim + 1) ->
  prun (p_ada lr0 dim l1 l2 f coef) k (SMem P g nx lr) =
  obind (ada_train_one lr0 l1 l2 f coef (P, g)) (fun '(P', g') => Ret (k, SMem P' g' nx lr, tt)).
Proof.
  intros HL. unfold p_ada, ada_train_one. cbn [Race.prun sm_get sm_p sm_g]. rewrite ?obind_assoc. apply obind_ext; intros v HV.
  rewrite ?obind_assoc. apply obind_ext; intros _ _. rewrite ?obind_assoc. apply obind_ext; intros _ _. rewrite ?obind_assoc. apply obind_ext; intros _ _.
  rewrite (HL v HV). replace (dim + 1 - 1) with dim by lia. cbn zeta.
  rewrite prun_bind, prun_dot, ?obind_assoc. cbn [sm_p]. apply obind_ext; intros s _. cbn [obind Race.prun sm_get sm_p].
  rewrite ?obind_assoc. apply obind_ext; intros b1 _. rewrite ?obind_assoc. apply obind_ext; intros b2 _.
  rewrite prun_bind, prun_ada_loop, ?obind_assoc. apply obind_ext; intros [P1 g1] _. cbn [obind Race.prun sm_get sm_g].
  rewrite ?obind_assoc. apply obind_ext; intros q1 _.
  rewrite prun_bind, prun_sub, ?obind_assoc. apply obind_ext; intros P2 _. cbn [obind Race.prun sm_get sm_set sm_g sm_p sm_next sm_lr].
  rewrite ?obind_assoc. apply obind_ext; intros q2 _.
  rewrite prun_bind, prun_sub, ?obind_assoc. apply obind_ext; intros P3 _. cbn [obind].
  rewrite prun_bind, prun_add, ?obind_assoc. apply obind_ext; intros g2 _. cbn [obind].
  rewrite prun_add, ?obind_assoc. apply obind_ext; intros g3 _. reflexivity.
Qed.


Lemma prun_solver lr0 dim l1 l2 f coef k P s g nx lr : (forall v, mat_slice P l1 = Ret v -> Z.of_nat (length v) = dim + 1) ->
  prun ((if is_ada s then p_ada lr0 dim else p_sgd lr0 dim) l1 l2 f coef) k (SMem P (sol_mat s g) nx lr) =
  obind (solver_train_one lr0 l1 l2 f coef (P, s)) (fun '(P', s') => Ret (k, SMem P' (sol_mat s' g) nx lr, tt)).
Proof.
  intros HL. unfold solver_train_one. destruct s as [|g0]; cbn [is_ada sol_mat snd fst].
  - rewrite prun_sgd, ?obind_assoc by auto. reflexivity.
  - rewrite prun_ada, ?obind_assoc by auto. apply obind_ext; intros [P' g'] _. reflexivity.
Qed.

Lemma of_rows_slice_len col rows l v : all_len col rows -> 0 <= l < Z.of_nat (length rows) -> mat_slice (of_rows col rows) l = Ret v -> length v = col.
Proof.
  intros HA Hl HV. pose proof (of_rows_slice col rows (Z.to_nat l) HA ltac:(lia)) as E. rewrite Z2Nat.id, HV in E by lia.
  injection E as ->. apply all_len_nth; auto. lia.
Qed.

Lemma prun_items lr0 dim V g nx lr : forall items k rows s, Forall (item_in V) items -> all_len (S dim) rows -> length rows = (2 * V)%nat ->
  sol_ok dim (length rows) s ->
  prun (p_items (is_ada s) lr0 (Z.of_nat dim) (Z.of_nat V) items) k (SMem (of_rows (S dim) rows) (sol_mat s g) nx lr) =
  obind (ofold (glove_train_item lr0 (Z.of_nat V)) items (of_rows (S dim) rows, s)) (fun '(P', s') => Ret (k, SMem P' (sol_mat s' g) nx lr, tt)).
Proof.
  induction items as [|it items IH]; intros k rows s HI HA HL Hs; [reflexivity|]. inversion HI as [|? ? (I1 & I2) HI']; subst.
  cbn [p_items ofold]. rewrite prun_bind. unfold p_item, glove_train_item. rewrite prun_bind.
  set (a := Z.to_nat (it_l1 it)). set (b := Z.to_nat (it_l2 it)).
  replace (it_l2 it + Z.of_nat V) with (Z.of_nat (b + V)) by lia.
  replace (it_l1 it + Z.of_nat V) with (Z.of_nat (a + V)) by lia.
  replace (it_l1 it) with (Z.of_nat a) by lia. replace (it_l2 it) with (Z.of_nat b) by lia.
  rewrite prun_solver by (intros v HV; apply (of_rows_slice_len (S dim)) in HV; auto; lia).
  destruct (solver_call lr0 dim rows a (b + V) (it_f it) (it_coef it) s ltac:(lia) HA ltac:(lia) ltac:(lia) Hs)
    as (rows1 & s1 & E1 & A1 & L1 & S1 & F1 & G1 & T1).
  assert (IA1 : is_ada s1 = is_ada s).
  { destruct s as [|g0]; [rewrite T1 by auto; reflexivity|]. destruct Hs as (gs & -> & Hg & Hl). destruct (G1 gs eq_refl Hg Hl) as (gs' & -> & _). reflexivity. }
  rewrite E1. cbn [obind]. rewrite <- IA1.
  rewrite prun_solver by (intros v HV; apply (of_rows_slice_len (S dim)) in HV; auto; lia).
  destruct (solver_call lr0 dim rows1 (a + V) b (it_f it) (it_coef it) s1 ltac:(lia) A1 ltac:(lia) ltac:(lia) ltac:(rewrite L1; exact S1))
    as (rows2 & s2 & E2 & A2 & L2 & S2 & F2 & G2 & T2).
  assert (IA2 : is_ada s2 = is_ada s1).
  { rewrite <- L1 in S1. destruct s1 as [|g0]; [rewrite T2 by auto; reflexivity|]. destruct S1 as (gs & -> & Hg & Hl). destruct (G2 gs eq_refl Hg Hl) as (gs' & -> & _). reflexivity. }
  rewrite E2. cbn [obind]. rewrite <- IA2. apply IH; auto; [lia|rewrite L2; exact S2].
Qed.

(** ** Windows and visits *)
Lemma prun_windowed {St T} (body : Z -> St -> prog St) (body' : Z -> T -> outcome T) (get : T -> St) (mem : T -> smem) (I : T -> Prop) k len pos window :
  (forall c t, 0 <= c < len -> I t -> prun (body c (get t)) k (mem t) = obind (body' c t) (fun t' => Ret (k, mem t', get t'))) ->
  (forall c t t', 0 <= c < len -> I t -> body' c t = Ret t' -> I t') ->
  forall del t, I t ->
  prun (p_windowed body len pos window del (get t)) k (mem t) = obind (windowed body' len pos window del t) (fun t' => Ret (k, mem t', get t')) /\
  (forall t', windowed body' len pos window del t = Ret t' -> I t').
Proof.
  intros HB HI. unfold p_windowed, windowed. intros del.
  enough (K : forall n a t, I t -> prun (p_win_loop body len pos window n a (get t)) k (mem t) =
      obind (win_loop body' len pos window n a t) (fun t' => Ret (k, mem t', get t')) /\
    (forall t', win_loop body' len pos window n a t = Ret t' -> I t')) by (intros t Ht; apply K; exact Ht).
  induction n as [|n IH]; intros a t Ht; [cbn; split; [reflexivity|intros t' E; injection E as <-; exact Ht]|].
  cbn [p_win_loop win_loop]. rewrite prun_bind.
  destruct (a =? window); [cbn [Race.prun obind]; apply IH; exact Ht|]. cbn zeta.
  destruct ((pos - window + a <? 0) || (pos - window + a >=? len)) eqn:EC; [cbn [Race.prun obind]; apply IH; exact Ht|].
  apply Bool.orb_false_iff in EC as (C1 & C2). apply Z.ltb_ge in C1. rewrite Z.geb_leb in C2. apply Z.leb_gt in C2.
  rewrite HB by (auto; lia). destruct (body' (pos - window + a) t) as [t1|e|] eqn:E1; cbn [obind]; try (split; [reflexivity|discriminate]).
  apply IH. eapply HI; eauto.
Qed.

Lemma prun_visit {X} samples train (tr : nat -> X -> outcome (X * bool)) (work : list nat -> nat -> X -> outcome X) (cnt : X -> nat) (mem : X -> smem) (I : X -> Prop) doc :
  (forall id v, I v -> match trial samples id (rand (cnt v)) with
     | Ret b => exists v', tr id v = Ret (v', b) /\ cnt v' = S (cnt v) /\ mem v' = mem v /\ I v'
     | Err e => tr id v = Err e | Panic => tr id v = Panic end) ->
  (forall pos v, (pos < length doc)%nat -> I v -> prun (train (Z.of_nat pos)) (cnt v) (mem v) = obind (work doc pos v) (fun v' => Ret (cnt v', mem v', tt))) ->
  (forall pos v v', (pos < length doc)%nat -> I v -> work doc pos v = Ret v' -> I v') ->
  forall todo pos v, (pos + length todo = length doc)%nat -> I v -> Forall (fun id => (id < length samples)%nat) todo ->
  prun (p_visit samples train (Z.of_nat pos) todo) (cnt v) (mem v) = obind (one_pass tr work doc pos todo v) (fun v' => Ret (cnt v', mem v', tt)).
Proof.
  intros HT HW HI. induction todo as [|id todo IH]; intros pos v HL Hv HF; [reflexivity|]. inversion HF as [|? ? Hid HF']; subst.
  cbn [length] in HL. cbn [p_visit one_pass Race.prun]. specialize (HT id v Hv).
  unfold trial in *. destruct (nth_error samples id) as [s|] eqn:E; [|apply nth_error_None in E; lia].
  destruct HT as (v' & -> & HC & HM & Hv'). cbn [obind]. rewrite <- HC, <- HM. rewrite prun_bind.
  replace (Z.of_nat pos + 1) with (Z.of_nat (S pos)) by lia.
  destruct (fgt s (rand (cnt v))).
  - rewrite HW by (auto; lia). rewrite ?obind_assoc. apply obind_ext; intros v1 E1. cbn [obind].
    apply IH; [lia| |exact HF']. apply (HI pos v'); auto. lia.
  - cbn [Race.prun obind]. apply IH; [lia|exact Hv'|exact HF'].
Qed.

(** ** LexVec *)
Lemma prun_update dim l1 l2 f k P g nx lr : prun (p_lex_update dim l1 l2 f) k (SMem P g nx lr) =
  obind (lex_update dim lr l1 l2 f P) (fun P' => Ret (k, SMem P' g nx lr, tt)).
Proof.
  unfold p_lex_update, lex_update. rewrite prun_bind, prun_dot, ?obind_assoc. apply obind_ext; intros s _. cbn [obind Race.prun sm_lr]. apply prun_pairs.
Qed.

Lemma prun_lex_negatives dim items V w k g lr : forall n nx P, prun (p_lex_negatives dim items V w n) k (SMem P g nx lr) =
  obind (lex_negatives dim lr items V w n (nx, P)) (fun '(nx', P') => Ret (k, SMem P' g nx' lr, tt)).
Proof.
  induction n as [|n IH]; intros nx P; [reflexivity|]. cbn [p_lex_negatives lex_negatives fst snd]. rewrite prun_bind, prun_next.
  cbn [sm_next sm_p sm_g sm_lr]. destruct (next_random nx V) as [nx' o]. rewrite ?obind_assoc. apply obind_ext; intros s _. cbn [obind]. cbn zeta.
  rewrite prun_bind, prun_update, ?obind_assoc. apply obind_ext; intros P' _. cbn [obind]. apply IH.
Qed.

Lemma prun_lex_train_one dim items V window neg doc pos k g nx lr P :
  prun (p_lex_train_one dim items V window neg doc pos) k (SMem P g nx lr) =
  obind (lex_train_one dim lr items V window neg doc pos (nx, P)) (fun '(nx', P') => Ret (k, SMem P' g nx' lr, tt)).
Proof.
  unfold p_lex_train_one, lex_train_one. rewrite prun_bind, prun_next. cbn [sm_next sm_p sm_g sm_lr fst snd].
  destruct (next_random nx window) as [nx' o]. rewrite ?obind_assoc. apply obind_ext; intros del _. cbn [obind].
  pose proof (prun_windowed (p_lex_body dim items V neg doc pos) (lex_body dim lr items V neg doc pos) (fun _ => tt)
    (fun t => SMem (snd t) g (fst t) lr) (fun _ => True) k (Z.of_nat (length doc)) pos window) as H.
  destruct H with (del := del) (t := (nx', P)) as (H1 & _); auto.
  - intros c [n1 P1] _ _. unfold p_lex_body, lex_body. cbn [fst snd]. destruct (zindex doc pos) as [w|]; [|reflexivity]. destruct (zindex doc c) as [u|]; [|reflexivity].
    cbn zeta. rewrite prun_bind, prun_update, ?obind_assoc. apply obind_ext; intros P2 _. cbn [obind]. rewrite prun_lex_negatives.
    apply obind_ext; intros [n3 P3] _. reflexivity.
  - cbn [fst snd] in H1. rewrite H1. apply obind_ext; intros [n3 P3] _. reflexivity.
Qed.

Lemma prun_lex_worker o items V samples doc g v : Forall (fun id => (id < length samples)%nat) doc ->
  prun (p_lex_worker (lex_Dim o) items V (lex_Window o) (lex_NegativeSampleSize o) samples doc) (lv_k v) (SMem (lv_m v) g (lv_next v) (lv_lr v)) =
  obind (one_pass (lxv_trial rand samples) (lxv_step o items V) doc 0 doc v) (fun v' => Ret (lv_k v', SMem (lv_m v') g (lv_next v') (lv_lr v'), tt)).
Proof.
  intros HF. unfold p_lex_worker.
  apply (prun_visit samples _ (lxv_trial rand samples) (lxv_step o items V) lv_k (fun v => SMem (lv_m v) g (lv_next v) (lv_lr v)) (fun _ => True) doc)
    with (pos := 0%nat); auto.
  - intros id v1 _. unfold lxv_trial. destruct (trial samples id (rand (lv_k v1))) as [b|e|]; cbn; auto. eexists. repeat split.
  - intros pos v1 Hp _. rewrite prun_lex_train_one. unfold lxv_step. rewrite ?obind_assoc. apply obind_ext; intros [n' m'] _. reflexivity.
Qed.

(** ** word2vec with negative sampling *)
Lemma inr0 n j : (j < n)%nat -> inr 0 n j = true.
Proof. intros H. unfold inr. apply andb_true_iff. split; [apply Nat.leb_le|apply Nat.ltb_lt]; lia. Qed.

Section W2v.
Variables (dim V : nat).
Definition src_vec (rows : list (list f64)) (c : vsrc) : list f64 := match c with Shared r => nth (Z.to_nat r) rows [] | Own v => v end.
Definition src_in (rows : list (list f64)) (c : vsrc) : Prop := match c with Shared r => 0 <= r < Z.of_nat (length rows) | Own v => length v = dim end.

Lemma src_len rows c : all_len dim rows -> src_in rows c -> length (src_vec rows c) = dim.
Proof. destruct c; cbn; intros HA Hc; auto. apply all_len_nth; auto. lia. Qed.

Lemma prun_src rows c i k g nx lr : all_len dim rows -> src_in rows c -> (i < dim)%nat ->
  prun (p_src c (Z.of_nat i)) k (SMem (of_rows dim rows) g nx lr) = Ret (k, SMem (of_rows dim rows) g nx lr, nth i (src_vec rows c) fzero).
Proof.
  intros HA Hc Hi. destruct c as [r|v]; cbn in *.
  - pose proof (cell_at dim rows (Z.to_nat r) i HA ltac:(lia) Hi) as E. rewrite Z2Nat.id in E by lia. rewrite E. reflexivity.
  - rewrite zindex_nat. rewrite (nth_error_nth' _ fzero) by lia. reflexivity.
Qed.

Lemma prun_inner rows grows r c k nx lr : all_len dim rows -> all_len dim grows -> src_in rows c -> (r < length grows)%nat ->
  forall n i acc, (i + n <= dim)%nat ->
  prun (p_inner (Z.of_nat r) c n (Z.of_nat i) acc) k (SMem (of_rows dim rows) (of_rows dim grows) nx lr) =
  Ret (k, SMem (of_rows dim rows) (of_rows dim grows) nx lr,
       fold_left (fun acc j => fadd acc (fmul (at2 grows r j) (nth j (src_vec rows c) fzero))) (seq i n) acc).
Proof.
  intros HA HG Hc Hr. induction n as [|n IH]; intros i acc Hi; [reflexivity|].
  cbn [p_inner Race.prun sm_get sm_g seq fold_left]. rewrite cell_at by (auto; lia). cbn [obind].
  rewrite prun_bind, prun_src by (auto; lia). cbn [obind]. replace (Z.of_nat i + 1) with (Z.of_nat (S i)) by lia. apply IH. lia.
Qed.

Lemma prun_grad label lr inner k m : prun (p_grad label lr inner) k m = obind (ns_grad sig label lr inner) (fun g => Ret (k, m, g)).
Proof.
  unfold p_grad, ns_grad. destruct (fle inner (fopp max_exp)); [reflexivity|]. destruct (fge inner max_exp); [reflexivity|].
  cbn [Race.prun]. rewrite ?obind_assoc. reflexivity.
Qed.

Lemma prun_apply rows r c g k nx lr : all_len dim rows -> src_in rows c ->
  forall n i tmp grows, (i + n <= dim)%nat -> all_len dim grows -> (r < length grows)%nat -> length tmp = dim ->
  exists grows' tmp',
    prun (p_apply (Z.of_nat r) c g n (Z.of_nat i) tmp) k (SMem (of_rows dim rows) (of_rows dim grows) nx lr) =
      Ret (k, SMem (of_rows dim rows) (of_rows dim grows') nx lr, tmp') /\
    all_len dim grows' /\ length grows' = length grows /\ length tmp' = dim /\
    (forall q j, at2 grows' q j = if (q =? r)%nat && inr i n j then fadd (at2 grows r j) (fmul g (nth j (src_vec rows c) fzero)) else at2 grows q j) /\
    (forall j, nth j tmp' fzero = if inr i n j then fadd (nth j tmp fzero) (fmul g (at2 grows r j)) else nth j tmp fzero).
Proof.
  intros HA Hc. induction n as [|n IH]; intros i tmp grows Hi HG Hr Ht.
  - exists grows, tmp. assert (E : forall j, inr i 0 j = false).
    { intros j. unfold inr. apply andb_false_iff. destruct (Nat.ltb_spec j (i + 0)); [left; apply Nat.leb_gt; lia|auto]. }
    split; [reflexivity|]. split; [auto|]. split; [auto|]. split; [auto|]. split; intros; rewrite E, ?Bool.andb_false_r; reflexivity.
  - cbn [p_apply Race.prun sm_get sm_g]. rewrite cell_at by (auto; lia). cbn [obind].
    rewrite zindex_nat. rewrite (nth_error_nth' _ fzero) by lia. cbn [Race.prun sm_get sm_g]. rewrite cell_at by (auto; lia). cbn [obind].
    rewrite prun_bind, prun_src by (auto; lia). cbn [obind Race.prun sm_get sm_set sm_g sm_p sm_next sm_lr]. rewrite set_cell_at by (auto; lia). cbn [obind].
    rewrite Nat2Z.id. replace (Z.of_nat i + 1) with (Z.of_nat (S i)) by lia.
    set (x := fadd (at2 grows r i) (fmul g (nth i (src_vec rows c) fzero))).
    destruct (put_ok dim grows r i x HG) as (A1 & L1).
    destruct (IH (S i) (upd tmp i (fadd (nth i tmp fzero) (fmul g (at2 grows r i)))) (put grows r i x)) as (grows' & tmp' & E & A2 & L2 & L3 & HQ & HT);
      [lia|auto|lia|rewrite upd_length; auto|].
    exists grows', tmp'. split; [exact E|]. split; [exact A2|]. split; [lia|]. split; [exact L3|]. split.
    + intros q j. rewrite HQ, !(put_at dim) by (auto; lia). rewrite inr_S. rewrite Nat.eqb_refl. cbn [andb].
      assert (NI : forall j, j = i -> inr (S i) n j = false) by (intros ? ->; unfold inr; apply andb_false_iff; left; apply Nat.leb_gt; lia).
      destruct (Nat.eqb_spec q r) as [->|]; cbn [andb]; auto. destruct (Nat.eqb_spec j i) as [->|]; cbn [orb andb]; auto.
      rewrite NI by reflexivity. reflexivity.
    + intros j. rewrite HT, (put_at dim) by (auto; lia). rewrite inr_S. rewrite Nat.eqb_refl, nth_upd. cbn [andb].
      assert (NI : forall j, j = i -> inr (S i) n j = false) by (intros ? ->; unfold inr; apply andb_false_iff; left; apply Nat.leb_gt; lia).
      destruct (Nat.eq_dec i j) as [<-|Hij].
      * rewrite Nat.eqb_refl. cbn [orb]. rewrite NI by reflexivity. destruct (Nat.ltb_spec i (length tmp)); [reflexivity|lia].
      * destruct (Nat.eqb_spec i j); [lia|]. destruct (Nat.eqb_spec j i); [lia|]. cbn [orb]. rewrite ?Bool.andb_false_r. reflexivity.
Qed.

Lemma prun_ns_step rows grows r c label lr0 tmp k nx lr : label = 0 \/ label = 1 -> all_len dim rows -> all_len dim grows -> src_in rows c ->
  (r < length grows)%nat -> length tmp = dim ->
  prun (p_ns_step lr0 dim c label (Z.of_nat r) tmp) k (SMem (of_rows dim rows) (of_rows dim grows) nx lr) =
  obind (ns_row_step sig lr0 (src_vec rows c) (r, label) (grows, tmp)) (fun '(grows', tmp') => Ret (k, SMem (of_rows dim rows) (of_rows dim grows') nx lr, tmp')).
Proof.
  intros Hl HA HG Hc Hr Ht. unfold p_ns_step, ns_row_step. cbn [Race.prun sm_get sm_g]. rewrite of_rows_slice by auto. cbn [obind].
  rewrite prun_bind. change 0 with (Z.of_nat 0) at 1. rewrite prun_inner by (auto; lia). cbn [obind].
  pose proof (src_len rows c HA Hc) as Lc. pose proof (all_len_nth _ _ _ HG Hr) as Lr.
  rewrite prun_bind, prun_grad, (ns_grad_predict sig) by auto. unfold at2 at 1. rewrite <- (dot_seq (nth r grows []) (src_vec rows c) dim) by auto.
  destruct (predict sig (dot (nth r grows []) (src_vec rows c))) as [s|e|]; cbn [obind]; auto.
  set (g := fmul (fsub (f_of_Z label) s) lr0). change 0 with (Z.of_nat 0).
  destruct (prun_apply rows r c g k nx lr HA Hc dim 0 tmp grows ltac:(lia) HG Hr Ht) as (grows' & tmp' & E & A' & L' & Lt & HQ & HT).
  rewrite E. f_equal. f_equal; [f_equal|].
  - f_equal. f_equal. apply (rows_ext dim); auto.
    + apply all_len_upd; auto. rewrite axpy_length; lia.
    + rewrite upd_length. exact L'.
    + intros q j Hq Hj. rewrite HQ. unfold at2 at 3. rewrite nth_upd. rewrite Nat.eqb_sym. destruct (Nat.eqb_spec r q) as [<-|]; cbn [andb]; [|reflexivity].
      destruct (Nat.ltb_spec r (length grows)); [|lia]. rewrite inr0 by lia.
      unfold axpy. rewrite nth_zipw by lia. reflexivity.
  - apply (nth_ext _ _ fzero fzero); [rewrite axpy_length; lia|]. intros j Hj. rewrite HT. rewrite inr0 by lia.
    unfold axpy. rewrite nth_zipw by lia. reflexivity.
Qed.

Lemma prun_ns_step' rows grows r c label lr0 tmp k nx lr : label = 0 \/ label = 1 -> all_len dim rows -> all_len dim grows -> src_in rows c ->
  (r < length grows)%nat -> length tmp = dim ->
  prun (p_ns_step lr0 dim c label (Z.of_nat r) tmp) k (SMem (of_rows dim rows) (of_rows dim grows) nx lr) =
  obind (ns_step sig lr0 (src_vec rows c) label (Z.of_nat r) (of_rows dim grows) tmp) (fun '(m', tmp') => Ret (k, SMem (of_rows dim rows) m' nx lr, tmp')) /\
  (forall m' tmp', ns_step sig lr0 (src_vec rows c) label (Z.of_nat r) (of_rows dim grows) tmp = Ret (m', tmp') ->
     exists grows', m' = of_rows dim grows' /\ all_len dim grows' /\ length grows' = length grows /\ length tmp' = dim).
Proof.
  intros Hl HA HG Hc Hr Ht. pose proof (src_len rows c HA Hc) as Lc. rewrite prun_ns_step, (ns_step_rows sig lr0 _ label r grows tmp dim) by auto. split.
  - rewrite ?obind_assoc. apply obind_ext; intros [g' t'] _. reflexivity.
  - intros m' tmp'. destruct (ns_row_step sig lr0 (src_vec rows c) (r, label) (grows, tmp)) as [[g' t']|e|] eqn:E; cbn [obind]; try discriminate.
    intros E'. injection E' as <- <-. destruct (ns_row_step_inv sig lr0 (src_vec rows c) r label grows tmp g' t' dim) as (B1 & B2 & B3 & _); eauto 6.
Qed.

Lemma prun_ns_negatives rows c lr0 id k lr : all_len dim rows -> src_in rows c -> (1 <= V)%nat -> Z.of_nat V < 2 ^ 63 ->
  forall n grows tmp nx, all_len dim grows -> length grows = V -> length tmp = dim ->
  prun (p_ns_negatives lr0 dim c (Z.of_nat V) id n tmp) k (SMem (of_rows dim rows) (of_rows dim grows) nx lr) =
  obind (ns_negatives sig lr0 (src_vec rows c) id n nx (of_rows dim grows) tmp) (fun '(nx', m', tmp') => Ret (k, SMem (of_rows dim rows) m' nx' lr, tmp')) /\
  (forall nx' m' tmp', ns_negatives sig lr0 (src_vec rows c) id n nx (of_rows dim grows) tmp = Ret (nx', m', tmp') ->
     exists grows', m' = of_rows dim grows' /\ all_len dim grows' /\ length grows' = V /\ length tmp' = dim).
Proof.
  intros HA Hc HV1 HV. induction n as [|n IH]; intros grows tmp nx HG HL Ht.
  - cbn. split; [reflexivity|]. intros nx' m' tmp' E. injection E as <- <- <-. eauto 6.
  - cbn [p_ns_negatives ns_negatives]. rewrite prun_bind, prun_next. cbn [sm_next sm_p sm_g sm_lr].
    assert (EM : m_row (of_rows dim grows) = Z.of_nat V) by (cbn; lia). rewrite !EM.
    destruct (draw_next nx (Z.of_nat V) ltac:(lia)) as (E & Hd). rewrite Nat2Z.id in Hd. rewrite E. cbn [obind].
    destruct (id =? Z.of_nat (draw nx (Z.of_nat V) 0)); [apply IH; auto|].
    destruct (prun_ns_step' rows grows (draw nx (Z.of_nat V) 0) c 0 lr0 tmp k (lcg nx) lr) as (E1 & E2); auto; [lia|].
    rewrite prun_bind, E1. destruct (ns_step _ _ _ _ _ _ _) as [[m' t']|e|] eqn:ES; cbn [obind]; try (split; [reflexivity|discriminate]).
    destruct (E2 m' t' eq_refl) as (g' & -> & B1 & B2 & B3). apply IH; auto. lia.
Qed.

Lemma prun_ns_optim rows c lr0 id neg k lr grows tmp nx : all_len dim rows -> src_in rows c -> Z.of_nat V < 2 ^ 63 ->
  0 <= id < Z.of_nat V -> all_len dim grows -> length grows = V -> length tmp = dim ->
  prun (p_ns_optim neg lr0 dim c (Z.of_nat V) id tmp) k (SMem (of_rows dim rows) (of_rows dim grows) nx lr) =
  obind (ns_optim sig neg lr0 (src_vec rows c) id nx (of_rows dim grows) tmp) (fun '(nx', m', tmp') => Ret (k, SMem (of_rows dim rows) m' nx' lr, tmp')) /\
  (forall nx' m' tmp', ns_optim sig neg lr0 (src_vec rows c) id nx (of_rows dim grows) tmp = Ret (nx', m', tmp') ->
     exists grows', m' = of_rows dim grows' /\ all_len dim grows' /\ length grows' = V /\ length tmp' = dim).
Proof.
  intros HA Hc HV Hid HG HL Ht. unfold p_ns_optim, ns_optim. destruct (neg <=? -1).
  - cbn. split; [reflexivity|]. intros nx' m' tmp' E. injection E as <- <- <-. eauto 6.
  - destruct (prun_ns_step' rows grows (Z.to_nat id) c 1 lr0 tmp k nx lr) as (E1 & E2); auto; [lia|]. rewrite Z2Nat.id in E1, E2 by lia.
    rewrite prun_bind, E1. destruct (ns_step _ _ _ _ _ _ _) as [[m' t']|e|] eqn:ES; cbn [obind]; try (split; [reflexivity|discriminate]).
    destruct (E2 m' t' eq_refl) as (g' & -> & B1 & B2 & B3). apply prun_ns_negatives; auto; lia.
Qed.

Lemma prun_add_row r tmp k g nx lr : length tmp = dim -> forall n i rows, (i + n <= dim)%nat -> all_len dim rows -> (r < length rows)%nat ->
  exists rows', prun (p_add_row (Z.of_nat r) n (Z.of_nat i) tmp) k (SMem (of_rows dim rows) g nx lr) = Ret (k, SMem (of_rows dim rows') g nx lr, tt) /\
    all_len dim rows' /\ length rows' = length rows /\
    (forall q j, at2 rows' q j = if (q =? r)%nat && inr i n j then fadd (at2 rows r j) (nth j tmp fzero) else at2 rows q j).
Proof.
  intros Ht. induction n as [|n IH]; intros i rows Hi HA Hr.
  - exists rows. split; [reflexivity|]. split; [auto|]. split; [auto|]. intros q j.
    replace (inr i 0 j) with false; [now rewrite Bool.andb_false_r|]. unfold inr. symmetry. apply andb_false_iff.
    destruct (Nat.ltb_spec j (i + 0)); [left; apply Nat.leb_gt; lia|auto].
  - cbn [p_add_row Race.prun sm_get sm_p]. rewrite cell_at by (auto; lia). cbn [obind].
    rewrite zindex_nat. rewrite (nth_error_nth' _ fzero) by lia. cbn [Race.prun sm_get sm_set sm_g sm_p sm_next sm_lr].
    rewrite set_cell_at by (auto; lia). cbn [obind]. replace (Z.of_nat i + 1) with (Z.of_nat (S i)) by lia.
    set (x := fadd (at2 rows r i) (nth i tmp fzero)).
    destruct (put_ok dim rows r i x HA) as (A1 & L1).
    destruct (IH (S i) (put rows r i x)) as (rows' & E & A2 & L2 & HQ); [lia|auto|lia|].
    exists rows'. split; [exact E|]. split; [exact A2|]. split; [lia|].
    intros q j. rewrite HQ, !(put_at dim) by (auto; lia). rewrite inr_S. rewrite Nat.eqb_refl. cbn [andb].
    assert (NI : forall j, j = i -> inr (S i) n j = false) by (intros ? ->; unfold inr; apply andb_false_iff; left; apply Nat.leb_gt; lia).
    destruct (Nat.eqb_spec q r) as [->|]; cbn [andb]; auto. destruct (Nat.eqb_spec j i) as [->|]; cbn [orb andb]; auto.
    rewrite NI by reflexivity. reflexivity.
Qed.

Lemma prun_add_row_all r tmp k g nx lr rows : length tmp = dim -> all_len dim rows -> (r < length rows)%nat ->
  prun (p_add_row (Z.of_nat r) dim 0 tmp) k (SMem (of_rows dim rows) g nx lr) =
  Ret (k, SMem (of_rows dim (upd rows r (vplus (nth r rows []) tmp))) g nx lr, tt).
Proof.
  intros Ht HA Hr. pose proof (all_len_nth _ _ _ HA Hr) as Lr. change 0 with (Z.of_nat 0).
  destruct (prun_add_row r tmp k g nx lr Ht dim 0 rows ltac:(lia) HA Hr) as (rows' & E & A' & L' & HQ). rewrite E.
  do 5 f_equal. apply (rows_ext dim); auto.
  - apply all_len_upd; auto. unfold vplus. rewrite zipw_length; lia.
  - now rewrite upd_length.
  - intros q j Hq Hj. rewrite HQ. unfold at2 at 3. rewrite nth_upd. rewrite Nat.eqb_sym. destruct (Nat.eqb_spec r q) as [<-|]; cbn [andb]; [|reflexivity].
    destruct (Nat.ltb_spec r (length rows)); [|lia]. rewrite inr0 by lia.
    unfold vplus. rewrite nth_zipw by lia. reflexivity.
Qed.

Lemma prun_collect r k g nx lr rows : all_len dim rows -> (r < length rows)%nat -> forall n i agg, (i + n <= dim)%nat -> length agg = dim ->
  exists agg', prun (p_collect (Z.of_nat r) n (Z.of_nat i) agg) k (SMem (of_rows dim rows) g nx lr) = Ret (k, SMem (of_rows dim rows) g nx lr, agg') /\
    length agg' = dim /\ (forall j, nth j agg' fzero = if inr i n j then fadd (nth j agg fzero) (at2 rows r j) else nth j agg fzero).
Proof.
  intros HA Hr. induction n as [|n IH]; intros i agg Hi Ha.
  - exists agg. split; [reflexivity|]. split; [auto|]. intros j.
    replace (inr i 0 j) with false; [reflexivity|]. unfold inr. symmetry. apply andb_false_iff.
    destruct (Nat.ltb_spec j (i + 0)); [left; apply Nat.leb_gt; lia|auto].
  - cbn [p_collect]. rewrite zindex_nat. rewrite (nth_error_nth' _ fzero) by lia. cbn [Race.prun sm_get sm_p]. rewrite cell_at by (auto; lia). cbn [obind].
    rewrite Nat2Z.id. replace (Z.of_nat i + 1) with (Z.of_nat (S i)) by lia.
    destruct (IH (S i) (upd agg i (fadd (nth i agg fzero) (at2 rows r i)))) as (agg' & E & L & HQ); [lia|rewrite upd_length; auto|].
    exists agg'. split; [exact E|]. split; [exact L|]. intros j. rewrite HQ, inr_S, nth_upd.
    assert (NI : forall j, j = i -> inr (S i) n j = false) by (intros ? ->; unfold inr; apply andb_false_iff; left; apply Nat.leb_gt; lia).
    destruct (Nat.eq_dec i j) as [<-|Hij].
    + rewrite Nat.eqb_refl. cbn [orb]. rewrite NI by reflexivity. destruct (Nat.ltb_spec i (length agg)); [reflexivity|lia].
    + destruct (Nat.eqb_spec i j); [lia|]. destruct (Nat.eqb_spec j i); [lia|]. cbn [orb]. rewrite ?Bool.andb_false_r. reflexivity.
Qed.

Lemma prun_collect_all r k g nx lr rows agg : all_len dim rows -> (r < length rows)%nat -> length agg = dim ->
  prun (p_collect (Z.of_nat r) dim 0 agg) k (SMem (of_rows dim rows) g nx lr) = Ret (k, SMem (of_rows dim rows) g nx lr, vplus agg (nth r rows [])).
Proof.
  intros HA Hr Ha. pose proof (all_len_nth _ _ _ HA Hr) as Lr. change 0 with (Z.of_nat 0).
  destruct (prun_collect r k g nx lr rows HA Hr dim 0 agg ltac:(lia) Ha) as (agg' & E & L & HQ). rewrite E. do 2 f_equal.
  apply (nth_ext _ _ fzero fzero); [unfold vplus; rewrite zipw_length; lia|]. intros j Hj. rewrite HQ. rewrite inr0 by lia.
  unfold vplus. rewrite nth_zipw by lia. reflexivity.
Qed.

Variables (window neg : Z).
Hypothesis HV : Z.of_nat V < 2 ^ 63.

(** States of the sequential model as shared memory. *)
Definition wmem (lr : f64) (st : wstate) : smem :=
  SMem (s_param st) (match s_opt st with NS m _ => m | HS _ _ _ => s_param st end) (s_next st) lr.
Definition winv (st : wstate) : Prop :=
  (exists rows, s_param st = of_rows dim rows /\ all_len dim rows /\ length rows = V) /\
  (exists grows, s_opt st = NS (of_rows dim grows) neg /\ all_len dim grows /\ length grows = V) /\
  length (s_agg st) = dim /\ length (s_tmp st) = dim.

Lemma doc_at (doc : list nat) c : Forall (fun id => (id < V)%nat) doc -> 0 <= c < Z.of_nat (length doc) ->
  exists u, zindex (map Z.of_nat doc) c = Some (Z.of_nat u) /\ (u < V)%nat.
Proof.
  intros HD Hc. replace c with (Z.of_nat (Z.to_nat c)) by lia. rewrite zindex_nat, nth_error_map.
  destruct (nth_error doc (Z.to_nat c)) as [u|] eqn:E; [|apply nth_error_None in E; lia]. exists u. split; [reflexivity|].
  apply nth_error_In in E. rewrite Forall_forall in HD. auto.
Qed.

Lemma prun_sg_body doc pos lr0 lr k c st : Forall (fun id => (id < V)%nat) doc -> 0 <= pos < Z.of_nat (length doc) -> 0 <= c < Z.of_nat (length doc) -> winv st ->
  prun (p_sg_body neg lr0 dim (Z.of_nat V) (map Z.of_nat doc) pos c (s_tmp st)) k (wmem lr st) =
    obind (sg_body sig (map Z.of_nat doc) pos lr0 c st) (fun st' => Ret (k, wmem lr st', s_tmp st')) /\
  (forall st', sg_body sig (map Z.of_nat doc) pos lr0 c st = Ret st' -> winv st').
Proof.
  intros HD Hp Hc ((rows & EP & HA & HL) & (grows & EO & HG & HLG) & Hag & Htm).
  destruct (doc_at doc c HD Hc) as (u & Eu & Hu). destruct (doc_at doc pos HD Hp) as (w & Ew & Hw).
  unfold p_sg_body, sg_body. rewrite Eu, Ew. unfold wmem. rewrite EP, EO. cbn [Race.prun sm_get sm_p]. rewrite of_rows_slice by (auto; lia). cbn [obind].
  fold (vzero (s_tmp st)). rewrite prun_bind.
  destruct (prun_ns_optim rows (Shared (Z.of_nat u)) lr0 (Z.of_nat w) neg k lr grows (vzero (s_tmp st)) (s_next st)) as (E1 & E2); auto;
    [cbn; lia|lia|rewrite vzero_length; auto|].
  cbn [src_vec] in E1, E2. rewrite Nat2Z.id in E1, E2. rewrite E1. unfold optim. rewrite ?obind_assoc.
  destruct (ns_optim _ _ _ _ _ _ _ _) as [[[nx' m'] t']|e|] eqn:EN; cbn [obind]; try (split; [reflexivity|discriminate]).
  destruct (E2 nx' m' t' eq_refl) as (g' & -> & B1 & B2 & B3).
  pose proof (all_len_nth _ _ u HA ltac:(lia)) as Lu.
  rewrite prun_bind, prun_add_row_all by (auto; lia). cbn [obind Race.prun]. rewrite vadd_into_plus by lia. cbn [obind].
  rewrite of_rows_store by (auto; try lia; unfold vplus; rewrite zipw_length; lia). cbn [s_param s_opt s_next s_tmp].
  split; [reflexivity|]. intros st' E. injection E as <-. split; [|split; [|split]]; cbn; auto.
  - eexists. split; [reflexivity|]. split; [apply all_len_upd; auto; unfold vplus; rewrite zipw_length; lia|rewrite upd_length; auto].
  - eauto.
Qed.

Lemma prun_sg doc pos lr0 lr k st : Forall (fun id => (id < V)%nat) doc -> 0 <= pos < Z.of_nat (length doc) -> winv st ->
  prun (p_sg_train_one neg lr0 dim (Z.of_nat V) window (map Z.of_nat doc) (s_tmp st) pos) k (wmem lr st) =
    obind (sg_train_one sig window (map Z.of_nat doc) pos lr0 st) (fun st' => Ret (k, wmem lr st', tt)) /\
  (forall st', sg_train_one sig window (map Z.of_nat doc) pos lr0 st = Ret st' -> winv st').
Proof.
  intros HD Hp HI. unfold p_sg_train_one, sg_train_one. rewrite prun_bind, prun_next. cbn [sm_next sm_p sm_g sm_lr wmem].
  destruct (next_random (s_next st) window) as [nx' o]. destruct o as [del|e|]; cbn [obind]; try (split; [reflexivity|discriminate]).
  set (st1 := WState nx' (s_param st) (s_opt st) (s_agg st) (s_tmp st)).
  assert (HI1 : winv st1) by exact HI.
  rewrite map_length.
  destruct (prun_windowed (p_sg_body neg lr0 dim (Z.of_nat V) (map Z.of_nat doc) pos) (sg_body sig (map Z.of_nat doc) pos lr0) s_tmp (wmem lr) winv k (Z.of_nat (length doc)) pos window) with (del := del) (t := st1) as (E1 & E2); auto.
  - intros c t Hc Ht. apply prun_sg_body; auto.
  - intros c t t' Hc Ht. apply (prun_sg_body doc pos lr0 lr 0%nat); auto.
  - split; [|exact E2]. rewrite prun_bind. change (SMem (s_param st) _ nx' lr) with (wmem lr st1). change (s_tmp st) with (s_tmp st1) at 1. rewrite E1.
    rewrite ?obind_assoc. reflexivity.
Qed.

Lemma prun_aggregate doc lr k c st : Forall (fun id => (id < V)%nat) doc -> 0 <= c < Z.of_nat (length doc) -> winv st ->
  prun (p_cb_aggregate dim (map Z.of_nat doc) c (s_agg st)) k (wmem lr st) =
    obind (cb_aggregate (map Z.of_nat doc) c st) (fun st' => Ret (k, wmem lr st', s_agg st')) /\
  (forall st', cb_aggregate (map Z.of_nat doc) c st = Ret st' -> winv st' /\ s_tmp st' = s_tmp st).
Proof.
  intros HD Hc ((rows & EP & HA & HL) & (grows & EO & HG & HLG) & Hag & Htm). destruct (doc_at doc c HD Hc) as (u & Eu & Hu).
  unfold p_cb_aggregate, cb_aggregate. rewrite Eu. unfold wmem. rewrite EP, EO. cbn [Race.prun sm_get sm_p]. rewrite of_rows_slice by (auto; lia). cbn [obind].
  pose proof (all_len_nth _ _ u HA ltac:(lia)) as Lu.
  rewrite prun_collect_all by (auto; lia). rewrite vacc_zip by lia. cbn [obind s_param s_opt s_next s_agg s_tmp]. split; [reflexivity|].
  intros st' E. injection E as <-. split; [|reflexivity]. split; [|split; [|split]]; cbn; eauto. unfold vplus. rewrite zipw_length; lia.
Qed.

Lemma prun_update_ctx doc lr k c st : Forall (fun id => (id < V)%nat) doc -> 0 <= c < Z.of_nat (length doc) -> winv st ->
  prun (p_cb_update dim (map Z.of_nat doc) c (s_tmp st)) k (wmem lr st) =
    obind (cb_update (map Z.of_nat doc) c st) (fun st' => Ret (k, wmem lr st', s_tmp st')) /\
  (forall st', cb_update (map Z.of_nat doc) c st = Ret st' -> winv st').
Proof.
  intros HD Hc ((rows & EP & HA & HL) & (grows & EO & HG & HLG) & Hag & Htm). destruct (doc_at doc c HD Hc) as (u & Eu & Hu).
  unfold p_cb_update, cb_update. rewrite Eu. unfold wmem. rewrite EP, EO. cbn [Race.prun sm_get sm_p]. rewrite of_rows_slice by (auto; lia). cbn [obind].
  pose proof (all_len_nth _ _ u HA ltac:(lia)) as Lu.
  rewrite prun_bind, prun_add_row_all by (auto; lia). rewrite vadd_into_plus by lia. cbn [obind Race.prun s_param s_opt s_next s_agg s_tmp].
  rewrite of_rows_store by (auto; try lia; unfold vplus; rewrite zipw_length; lia). split; [reflexivity|].
  intros st' E. injection E as <-. split; [|split; [|split]]; cbn; eauto.
  eexists. split; [reflexivity|]. split; [apply all_len_upd; auto; unfold vplus; rewrite zipw_length; lia|rewrite upd_length; auto].
Qed.

Lemma prun_cb doc pos lr0 lr k st : Forall (fun id => (id < V)%nat) doc -> 0 <= pos < Z.of_nat (length doc) -> winv st ->
  prun (p_cb_train_one neg lr0 dim (Z.of_nat V) window (map Z.of_nat doc) (s_agg st) (s_tmp st) pos) k (wmem lr st) =
    obind (cb_train_one sig window (map Z.of_nat doc) pos lr0 st) (fun st' => Ret (k, wmem lr st', tt)) /\
  (forall st', cb_train_one sig window (map Z.of_nat doc) pos lr0 st = Ret st' -> winv st').
Proof.
  intros HD Hp (HI1 & HI2 & HI3 & HI4). unfold p_cb_train_one, cb_train_one, p_dowith, cb_dowith. cbn zeta. rewrite !prun_bind, prun_next.
  cbn [sm_next sm_p sm_g sm_lr wmem s_next s_param s_opt s_agg s_tmp].
  destruct (next_random (s_next st) window) as [nx' o]. destruct o as [del|e|]; cbn [obind]; try (split; [reflexivity|discriminate]).
  set (st1 := WState nx' (s_param st) (s_opt st) (vzero (s_agg st)) (vzero (s_tmp st))).
  assert (W1 : winv st1 /\ s_tmp st1 = vzero (s_tmp st)).
  { split; [|reflexivity]. split; [exact HI1|]. split; [exact HI2|]. cbn. rewrite !vzero_length. auto. }
  rewrite map_length.
  destruct (prun_windowed (p_cb_aggregate dim (map Z.of_nat doc)) (cb_aggregate (map Z.of_nat doc)) s_agg (wmem lr) (fun s => winv s /\ s_tmp s = vzero (s_tmp st)) k (Z.of_nat (length doc)) pos window) with (del := del) (t := st1) as (E1 & E2); auto.
  { intros c t Hc (Ht & _). apply prun_aggregate; auto. }
  { intros c t t' Hc (Ht & Ht') E. destruct (prun_aggregate doc lr 0%nat c t HD Hc Ht) as (_ & K). destruct (K t' E) as (K1 & K2). split; [exact K1|]. congruence. }
  change (SMem (s_param st) _ nx' lr) with (wmem lr st1). change (map (fun _ => fzero) (s_agg st)) with (s_agg st1). rewrite E1.
  destruct (windowed (cb_aggregate (map Z.of_nat doc)) (Z.of_nat (length doc)) pos window del st1) as [st2|e|] eqn:EW; cbn [obind]; try (split; [reflexivity|discriminate]).
  destruct (E2 st2 eq_refl) as ((J1 & (grows & EO & HG & HLG) & J3 & J4) & ET). destruct J1 as (rows & EP & HA & HL).
  destruct (doc_at doc pos HD Hp) as (w & Ew & Hw). rewrite Ew. rewrite prun_bind.
  fold (vzero (s_tmp st)). rewrite <- ET. unfold wmem at 1. rewrite EP, EO.
  destruct (prun_ns_optim rows (Own (s_agg st2)) lr0 (Z.of_nat w) neg k lr grows (s_tmp st2) (s_next st2)) as (F1 & F2); auto; [lia|].
  cbn [src_vec] in F1, F2. rewrite F1. unfold optim. rewrite ?obind_assoc.
  destruct (ns_optim _ _ _ _ _ _ _ _) as [[[nx2 m2] t2]|e|] eqn:EN; cbn [obind]; try (split; [reflexivity|discriminate]).
  destruct (F2 nx2 m2 t2 eq_refl) as (g2 & -> & B1 & B2 & B3).
  cbn [s_next s_param s_opt s_agg s_tmp]. rewrite !prun_bind, prun_next. cbn [sm_next sm_p sm_g sm_lr].
  destruct (next_random nx2 window) as [nx3 o3]. destruct o3 as [del3|e|]; cbn [obind]; try (split; [reflexivity|discriminate]).
  set (st3 := WState nx3 (of_rows dim rows) (NS (of_rows dim g2) neg) (s_agg st2) t2).
  assert (W3 : winv st3).
  { split; [exists rows; auto|]. split; [exists g2; auto|]. split; [exact J3|exact B3]. }
  destruct (prun_windowed (p_cb_update dim (map Z.of_nat doc)) (cb_update (map Z.of_nat doc)) s_tmp (wmem lr) winv k (Z.of_nat (length doc)) pos window) with (del := del3) (t := st3) as (G1 & G2); auto.
  { intros c t Hc Ht. apply prun_update_ctx; auto. }
  { intros c t t' Hc Ht. apply (prun_update_ctx doc lr 0%nat); auto. }
  split; [|exact G2]. change (SMem (of_rows dim rows) (of_rows dim g2) nx3 lr) with (wmem lr st3). change t2 with (s_tmp st3) at 1. rewrite G1.
  rewrite ?obind_assoc. reflexivity.
Qed.

Definition vmem (v : wvals) : smem := SMem (wv_m v) (match wv_o v with NS m _ => m | HS _ _ _ => wv_m v end) (wv_next v) (wv_lr v).

Lemma prun_w2v_worker cbow samples doc v : Forall (fun id => (id < V)%nat) doc -> (V <= length samples)%nat ->
  (exists rows grows, wv_m v = of_rows dim rows /\ all_len dim rows /\ length rows = V /\
     wv_o v = NS (of_rows dim grows) neg /\ all_len dim grows /\ length grows = V) ->
  prun (p_w2v_worker cbow neg dim (Z.of_nat V) window samples (repeat fzero dim) (repeat fzero dim) doc) (wv_k v) (vmem v) =
  obind (one_pass (w2v_trial rand samples) (w2v_step sig (if cbow then Cbow else SkipGram) window (Z.of_nat dim)) doc 0 doc v) (fun v' => Ret (wv_k v', vmem v', tt)).
Proof.
  intros HD HS HI. unfold p_w2v_worker.
  set (I := fun v => exists rows grows, wv_m v = of_rows dim rows /\ all_len dim rows /\ length rows = V /\
     wv_o v = NS (of_rows dim grows) neg /\ all_len dim grows /\ length grows = V).
  assert (HW : forall pos v, (pos < length doc)%nat -> I v ->
    prun (PLr (fun lr => if cbow then p_cb_train_one neg lr dim (Z.of_nat V) window (map Z.of_nat doc) (repeat fzero dim) (repeat fzero dim) (Z.of_nat pos)
       else p_sg_train_one neg lr dim (Z.of_nat V) window (map Z.of_nat doc) (repeat fzero dim) (Z.of_nat pos))) (wv_k v) (vmem v) =
    obind (w2v_step sig (if cbow then Cbow else SkipGram) window (Z.of_nat dim) doc pos v) (fun v' => Ret (wv_k v', vmem v', tt)) /\
    forall v', w2v_step sig (if cbow then Cbow else SkipGram) window (Z.of_nat dim) doc pos v = Ret v' -> I v').
  { intros pos v1 Hpos (rows & grows & EP & HA & HL & EO & HG & HLG). unfold w2v_step. rewrite Nat2Z.id.
    set (st := WState (wv_next v1) (wv_m v1) (wv_o v1) (repeat fzero dim) (repeat fzero dim)).
    assert (HI1 : winv st).
    { split; [exists rows; auto|]. split; [exists grows; auto|]. cbn. rewrite !repeat_length. auto. }
    change (vmem v1) with (wmem (wv_lr v1) st). cbn [Race.prun]. change (sm_lr (wmem (wv_lr v1) st)) with (wv_lr v1).
    assert (Hp : 0 <= Z.of_nat pos < Z.of_nat (length doc)) by lia.
    destruct cbow.
    - destruct (prun_cb doc (Z.of_nat pos) (wv_lr v1) (wv_lr v1) (wv_k v1) st HD Hp HI1) as (E1 & E2). cbn [s_agg s_tmp st] in E1. fold st. rewrite E1, ?obind_assoc.
      split; [apply obind_ext; intros s' _; reflexivity|].
      destruct (cb_train_one sig window (map Z.of_nat doc) (Z.of_nat pos) (wv_lr v1) st) as [s'|e|] eqn:E; cbn [obind]; try discriminate.
      intros v' Ev. injection Ev as <-. destruct (E2 s' eq_refl) as ((r1 & K1 & K2 & K3) & (g1 & K4 & K5 & K6) & _). exists r1, g1. cbn. auto 7.
    - destruct (prun_sg doc (Z.of_nat pos) (wv_lr v1) (wv_lr v1) (wv_k v1) st HD Hp HI1) as (E1 & E2). cbn [s_agg s_tmp st] in E1. fold st. rewrite E1, ?obind_assoc.
      split; [apply obind_ext; intros s' _; reflexivity|].
      destruct (sg_train_one sig window (map Z.of_nat doc) (Z.of_nat pos) (wv_lr v1) st) as [s'|e|] eqn:E; cbn [obind]; try discriminate.
      intros v' Ev. injection Ev as <-. destruct (E2 s' eq_refl) as ((r1 & K1 & K2 & K3) & (g1 & K4 & K5 & K6) & _). exists r1, g1. cbn. auto 7. }
  apply (prun_visit samples _ (w2v_trial rand samples) (w2v_step sig (if cbow then Cbow else SkipGram) window (Z.of_nat dim)) wv_k vmem I doc) with (pos := 0%nat).
  - intros id v1 Hv1. unfold w2v_trial. destruct (trial samples id (rand (wv_k v1))) as [b|e|]; cbn; auto. eexists. split; [reflexivity|]. split; [reflexivity|]. split; [reflexivity|]. exact Hv1.
  - intros. apply HW; auto.
  - intros pos v1 v' Hp H1 H2. eapply HW; eauto.
  - reflexivity.
  - exact HI.
  - eapply Forall_impl; [|exact HD]. cbn. intros; lia.
Qed.
End W2v.
End Alone.
