From Coq Require Import Lia.
From Verif.Lib Require Import Go F64 ListFacts Tac.
From Verif.Model Require Import ModelUtil Encode Matrix Cells Subsample Sigmoid Glove Lexvec Race.
From Verif.Spec Require Import Rows Race.
From Verif.Proofs Require Import Matrix Word2vec Cells ModelUtil.
Local Open Scope Z_scope.

Section Safe.
(** Rows and columns of the two matrices; what is known of the cells of the second; lookups. *)
Variables (np cp ng cg : nat) (Q : f64 -> Prop) (Lk : f64 -> Prop).
Definition nrows (g : bool) : nat := if g then ng else np.
Definition ncols (g : bool) : nat := if g then cg else cp.

Definition mem_ok (m : smem) : Prop :=
  grid np cp (sm_p m) /\
  (exists rows, sm_g m = of_rows cg rows /\ all_len cg rows /\ length rows = ng /\
     forall r i, (r < ng)%nat -> (i < cg)%nat -> Q (at2 rows r i)) /\
  0 <= sm_next m < W64.

Fixpoint safe {R} (p : prog R) (n : nat) (Post : R -> Prop) : Prop :=
  match p with
  | PRet r => Post r
  | PPanic => False
  | PSlice g row k => 0 <= row < Z.of_nat (nrows g) /\ match n with O => False | S n' => safe k n' Post end
  | PLoad g row i k => 0 <= row < Z.of_nat (nrows g) /\ 0 <= i < Z.of_nat (ncols g) /\
      match n with O => False | S n' => forall x, (g = true -> Q x) -> safe (k x) n' Post end
  | PStore g row i x k => 0 <= row < Z.of_nat (nrows g) /\ 0 <= i < Z.of_nat (ncols g) /\ (g = true -> Q x) /\
      match n with O => False | S n' => safe k n' Post end
  | PLoadNext k => match n with O => False | S n' => forall z, 0 <= z < W64 -> safe (k z) n' Post end
  | PStoreNext z k => 0 <= z < W64 /\ match n with O => False | S n' => safe k n' Post end
  | PLr k => match n with O => False | S n' => forall x, safe (k x) n' Post end
  | PRand k => match n with O => False | S n' => forall x, safe (k x) n' Post end
  | PLookup y k => Lk y /\ match n with O => False | S n' => forall x, safe (k x) n' Post end
  end.

Lemma safe_mono {R} (p : prog R) : forall n m (P P' : R -> Prop), safe p n P -> (n <= m)%nat -> (forall r, P r -> P' r) -> safe p m P'.
Proof.
  induction p as [r| |g row k IH|g row i k IH|g row i x k IH|k IH|z k IH|k IH|k IH|y k IH]; cbn; intros n m P P' HS HL HP;
    try (destruct n as [|n]; [try tauto|]); try (destruct m as [|m]; [lia|]); auto; try tauto.
  all: try (destruct HS as (A & B & C & D)); try (destruct HS as (A & B & C)); try (destruct HS as (A & B));
    repeat (split; [assumption|]); intros; try eapply IH; eauto; try lia.
  all: try (eapply H; eauto; lia).
Qed.

Lemma safe_bind {R S} (f : R -> prog S) (Post' : S -> Prop) b (p : prog R) : forall n (P : R -> Prop),
  safe p n P -> (forall r, P r -> safe (f r) b Post') -> safe (pbind p f) (n + b) Post'.
Proof.
  induction p as [r| |g row k IH|g row i k IH|g row i x k IH|k IH|z k IH|k IH|k IH|y k IH]; cbn; intros n P HS HF;
    try (destruct n as [|n]; [try tauto|]); cbn [Nat.add]; auto; try tauto.
  all: try (eapply safe_mono; [apply HF; exact HS|lia|auto]).
  all: try (destruct HS as (A & B & C & D)); try (destruct HS as (A & B & C)); try (destruct HS as (A & B));
    repeat (split; [assumption|]); intros; try eapply IH; eauto.
Qed.

Lemma cell_in g m row i : mem_ok m -> 0 <= row < Z.of_nat (nrows g) -> 0 <= i < Z.of_nat (ncols g) ->
  exists x, cell (sm_get m g) row i = Ret x /\ (g = true -> Q x).
Proof.
  intros (HP & HG & _) Hr Hi.
  destruct g; cbn in *.
  - destruct HG as (rows & -> & A & L & HQ). exists (at2 rows (Z.to_nat row) (Z.to_nat i)).
    pose proof (cell_at cg rows (Z.to_nat row) (Z.to_nat i) A ltac:(lia) ltac:(lia)) as E. rewrite !Z2Nat.id in E by lia.
    split; [exact E|]. intros _. apply HQ; lia.
  - destruct HP as (rows & -> & A & L). exists (at2 rows (Z.to_nat row) (Z.to_nat i)).
    pose proof (cell_at cp rows (Z.to_nat row) (Z.to_nat i) A ltac:(lia) ltac:(lia)) as E. rewrite !Z2Nat.id in E by lia.
    split; [exact E|]. discriminate.
Qed.

Lemma slice_in g m row : mem_ok m -> 0 <= row < Z.of_nat (nrows g) -> exists x, mat_slice (sm_get m g) row = Ret x.
Proof.
  intros (HP & HG & _) Hr.
  destruct g; cbn in *.
  - destruct HG as (rows & -> & A & L & HQ).
    pose proof (of_rows_slice cg rows (Z.to_nat row) A ltac:(lia)) as E. rewrite Z2Nat.id in E by lia. eauto.
  - destruct HP as (rows & -> & A & L).
    pose proof (of_rows_slice cp rows (Z.to_nat row) A ltac:(lia)) as E. rewrite Z2Nat.id in E by lia. eauto.
Qed.

Lemma set_in g m row i x : mem_ok m -> 0 <= row < Z.of_nat (nrows g) -> 0 <= i < Z.of_nat (ncols g) -> (g = true -> Q x) ->
  exists a, set_cell (sm_get m g) row i x = Ret a /\ mem_ok (sm_set m g a).
Proof.
  intros (HP & HG & HN) Hr Hi HX.
  destruct g; cbn in *.
  - destruct HG as (rows & EG & A & L & HQ). rewrite EG.
    pose proof (set_cell_at cg rows (Z.to_nat row) (Z.to_nat i) x A ltac:(lia) ltac:(lia)) as E. rewrite !Z2Nat.id in E by lia.
    exists (of_rows cg (put rows (Z.to_nat row) (Z.to_nat i) x)). split; [exact E|].
    destruct (put_ok cg rows (Z.to_nat row) (Z.to_nat i) x A) as (A' & L').
    split; [exact HP|]. split; [|exact HN]. cbn.
    exists (put rows (Z.to_nat row) (Z.to_nat i) x). split; [reflexivity|]. split; [exact A'|]. split; [lia|].
    intros r j Hr' Hj'. rewrite (put_at cg) by (auto; lia). destruct (_ && _); auto.
  - destruct HP as (rows & EP & A & L). rewrite EP.
    pose proof (set_cell_at cp rows (Z.to_nat row) (Z.to_nat i) x A ltac:(lia) ltac:(lia)) as E. rewrite !Z2Nat.id in E by lia.
    exists (of_rows cp (put rows (Z.to_nat row) (Z.to_nat i) x)). split; [exact E|].
    destruct (put_ok cp rows (Z.to_nat row) (Z.to_nat i) x A) as (A' & L').
    split; [|split; [exact HG|exact HN]]. cbn.
    exists (put rows (Z.to_nat row) (Z.to_nat i) x). split; [reflexivity|]. split; [exact A'|]. lia.
Qed.

Section Run.
Context {R : Type} (Post : R -> Prop).
Variable sig : f64 -> outcome f64.

Definition lookup_fails (p : prog R) : Prop := exists y k, p = PLookup y k /\ Lk y /\ forall v, sig y <> Ret v.

Lemma pexec_safe p n m x : mem_ok m -> safe p n Post -> pdone p = false ->
  (exists m' p' n', pexec sig x m p = Ret (m', p') /\ mem_ok m' /\ n = S n' /\ safe p' n' Post) \/ lookup_fails p.
Proof.
  intros HM HS HD. destruct p as [r| |g row k|g row i k|g row i y k|k|z k|k|k|y k]; cbn in *; try discriminate; try tauto.
  - destruct HS as (A & B). destruct n as [|n]; [tauto|]. destruct (slice_in g m row HM A) as (v & ->). left. cbn. eauto 8.
  - destruct HS as (A & B & C). destruct n as [|n]; [tauto|]. destruct (cell_in g m row i HM A B) as (v & -> & HQ). left. cbn. eauto 8.
  - destruct HS as (A & B & C & D). destruct n as [|n]; [tauto|]. destruct (set_in g m row i y HM A B C) as (a & -> & HO). left. cbn. eauto 8.
  - destruct n as [|n]; [tauto|]. left. do 3 eexists. split; [reflexivity|]. split; [exact HM|]. split; [reflexivity|]. apply HS. apply HM.
  - destruct HS as (A & B). destruct n as [|n]; [tauto|]. left. do 3 eexists. split; [reflexivity|]. split; [|auto].
    destruct HM as (H1 & H2 & H3). split; [exact H1|]. split; [exact H2|]. exact A.
  - destruct n as [|n]; [tauto|]. left. eauto 8.
  - destruct n as [|n]; [tauto|]. left. eauto 8.
  - destruct HS as (HL & HS). destruct n as [|n]; [tauto|]. destruct (sig y) as [v|e|] eqn:E; cbn.
    + left. eauto 8.
    + right. exists y, k. rewrite E. repeat split; auto. discriminate.
    + right. exists y, k. rewrite E. repeat split; auto. discriminate.
Qed.

Definition all_safe (ts : list (prog R)) (ns : list nat) : Prop := Forall2 (fun p n => safe p n Post) ts ns.

Lemma all_safe_upd ts ns i p p' n n' : all_safe ts ns -> nth_error ts i = Some p -> nth_error ns i = Some n ->
  safe p' n' Post -> all_safe (upd ts i p') (upd ns i n').
Proof.
  intros H. revert i. induction H as [|t k ts ns H HS IH]; intros [|i]; cbn; try discriminate; intros E1 E2 HS'.
  - constructor; auto.
  - constructor; auto. apply IH; auto.
Qed.

Lemma total_upd ns : forall i n, nth_error ns i = Some (S n) -> S (total (upd ns i n)) = total ns.
Proof.
  unfold total. induction ns as [|k ns IH]; intros [|i] n E; try discriminate; cbn in E |- *.
  - injection E as ->. reflexivity.
  - rewrite <- (IH i n E). lia.
Qed.

Lemma all_safe_nth ts ns i p : all_safe ts ns -> nth_error ts i = Some p -> exists n, nth_error ns i = Some n /\ safe p n Post.
Proof.
  intros H. revert i. induction H as [|t k ts ns H HS IH]; intros [|i]; cbn; try discriminate.
  - intros E. injection E as ->. eauto.
  - apply IH.
Qed.

Lemma runs_inv ts ns m n s : all_safe ts ns -> mem_ok m -> sys_runs sig n (Sys m ts) s ->
  mem_ok (y_mem s) /\ exists ns', all_safe (y_threads s) ns' /\ (n + total ns' = total ns)%nat.
Proof.
  intros HA HM HR. remember (Sys m ts) as s0 eqn:E0. induction HR as [s|n s s' s'' HR IH HS|n s s' s'' HR IH HE]; subst.
  - cbn. split; [exact HM|]. exists ns. split; [exact HA|lia].
  - destruct (IH eq_refl) as (HM' & ns' & HA' & HT). inversion HS as [m1 ts1 i p x EN ED EQ1 EQ2]. subst s'. cbn in HM', HA'.
    destruct (all_safe_nth _ _ _ _ HA' EN) as (k & EK & HK).
    destruct (pexec_safe p k m1 x HM' HK ED) as [(m' & p' & k' & EX & HM2 & -> & HK')|(y & kk & -> & _ & HF)].
    + rewrite EX in EQ2. cbn in EQ2. injection EQ2 as <-. cbn. split; [exact HM2|].
      exists (upd ns' i k'). split; [eapply all_safe_upd; eauto|]. pose proof (total_upd ns' i k' EK). lia.
    + exfalso. cbn in EQ2. destruct (sig y) as [v|e|]; cbn in EQ2; try discriminate. apply (HF v). reflexivity.
  - destruct (IH eq_refl) as (HM' & ns' & HA' & HT). inversion HE as [m1 ts1 lr EQ1 EQ2]. subst s' s''. cbn in *.
    split; [|eauto]. destruct HM' as (H1 & H2 & H3). split; [exact H1|]. split; [exact H2|exact H3].
Qed.

Lemma survives_safe ts ns m (inv : smem -> Prop) (exc : prog R -> Prop) bound : all_safe ts ns -> mem_ok m ->
  (forall m, mem_ok m -> inv m) -> (forall p, lookup_fails p -> exc p) -> (total ns <= bound)%nat ->
  survives sig bound inv exc (Sys m ts).
Proof.
  intros HA HM HI HE HB n s HR. destruct (runs_inv ts ns m n s HA HM HR) as (HM' & ns' & HA' & HT).
  split; [lia|]. split; [auto|]. intros i p x EN ED. destruct (all_safe_nth _ _ _ _ HA' EN) as (k & EK & HK).
  destruct (pexec_safe p k (y_mem s) x HM' HK ED) as [(m' & p' & k' & EX & _)|HF]; [left; eauto|right; auto].
Qed.
End Run.

(** ** The pieces *)
Lemma next_safe v : 1 <= v < 2 ^ 63 -> safe (p_next_random v) 3 (fun r => 0 <= r < v).
Proof.
  intros Hv. cbn. intros z Hz. split; [apply lcg_range|]. intros z' Hz'.
  rewrite (Z.mod_small v) by (unfold W64; lia). destruct (Z.eqb_spec v 0); [lia|]. cbn.
  assert (0 <= z' mod v < v) by (apply Z.mod_pos_bound; lia).
  unfold int_of_u64. destruct (Z.ltb_spec (z' mod v) (2 ^ 63)); lia.
Qed.

Lemma sub_safe row i t : 0 <= row < Z.of_nat np -> 0 <= i < Z.of_nat cp -> safe (p_sub false row i t) 2 (fun _ => True).
Proof. intros Hr Hi. cbn. repeat split; try lia; discriminate. Qed.

Lemma dot_safe l1 l2 : 0 <= l1 < Z.of_nat np -> 0 <= l2 < Z.of_nat np -> forall n i acc, 0 <= i -> i + Z.of_nat n <= Z.of_nat cp ->
  safe (p_dot l1 l2 n i acc) (2 * n) (fun _ => True).
Proof.
  intros H1 H2 n. induction n as [|n IH]; intros i acc Hi Hn; [exact I|].
  replace (2 * S n)%nat with (S (S (2 * n))) by lia. cbn -[Nat.mul].
  split; [lia|]. split; [lia|]. intros a _. split; [lia|]. split; [lia|]. intros b _. apply IH; lia.
Qed.

Lemma pairs_safe d l1 l2 : 0 <= l1 < Z.of_nat np -> 0 <= l2 < Z.of_nat np -> forall n i, 0 <= i -> i + Z.of_nat n <= Z.of_nat cp ->
  safe (p_pairs d l1 l2 n i) (6 * n) (fun _ => True).
Proof.
  intros H1 H2 n. induction n as [|n IH]; intros i Hi Hn; [exact I|].
  replace (6 * S n)%nat with (S (S (2 + (2 + 6 * n)))) by lia. cbn -[Nat.mul].
  repeat (first [lia | discriminate | split; [first [lia|discriminate]|] | intros ? _]). apply IH; lia.
Qed.

Lemma sgd_safe lr (dim : nat) l1 l2 f coef : cp = S dim -> 0 <= l1 < Z.of_nat np -> 0 <= l2 < Z.of_nat np ->
  safe (p_sgd lr (Z.of_nat dim) l1 l2 f coef) (8 * dim + 8) (fun _ => True).
Proof.
  intros HC H1 H2. replace (8 * dim + 8)%nat with (S (S (2 * dim + (S (S (6 * dim + (2 + 2))))))) by lia.
  unfold p_sgd. cbn -[p_dot p_pairs p_sub Nat.add Nat.mul]. split; [exact H1|]. split; [exact H2|].
  rewrite Nat2Z.id.
  eapply safe_bind; [apply dot_safe; auto; lia|]. intros s _.
  cbn -[p_pairs p_sub Nat.add Nat.mul]. split; [lia|]. split; [lia|]. intros b1 _. split; [lia|]. split; [lia|]. intros b2 _.
  eapply safe_bind; [apply pairs_safe; auto; lia|]. intros _ _.
  eapply safe_bind; [apply sub_safe; lia|]. intros _ _. apply sub_safe; lia.
Qed.

Hypothesis Qstep : forall q t, Q q -> Q (fadd q (fmul t t)).

Lemma addg_safe row i t : 0 <= row < Z.of_nat ng -> 0 <= i < Z.of_nat cg -> safe (p_add true row i (fmul t t)) 2 (fun _ => True).
Proof. intros Hr Hi. cbn. repeat split; try lia. intros _. apply Qstep; auto. Qed.

Lemma ada_loop_safe d l1 l2 : 0 <= l1 < Z.of_nat np -> 0 <= l2 < Z.of_nat np -> ng = np -> cg = cp ->
  forall n i, 0 <= i -> i + Z.of_nat n <= Z.of_nat cp -> safe (p_ada_loop d l1 l2 n i) (12 * n) (fun _ => True).
Proof.
  intros H1 H2 HN HC n. induction n as [|n IH]; intros i Hi Hn; [exact I|].
  replace (12 * S n)%nat with (S (S (2 + (2 + (S (S (2 + (2 + 12 * n)))))))) by lia.
  cbn -[p_add p_sub Nat.add Nat.mul]. fold @safe.
  split; [lia|]. split; [lia|]. intros b _. split; [lia|]. split; [lia|]. intros a _.
  eapply safe_bind; [apply addg_safe; lia|]. intros _ _.
  eapply safe_bind; [apply addg_safe; lia|]. intros _ _.
  cbn -[p_sub Nat.add Nat.mul]. split; [lia|]. split; [lia|]. intros q1 _. split; [lia|]. split; [lia|]. intros q2 _.
  eapply safe_bind; [apply sub_safe; lia|]. intros _ _.
  eapply safe_bind; [apply sub_safe; lia|]. intros _ _. apply IH; lia.
Qed.

Lemma ada_safe lr (dim : nat) l1 l2 f coef : cp = S dim -> ng = np -> cg = cp -> 0 <= l1 < Z.of_nat np -> 0 <= l2 < Z.of_nat np ->
  safe (p_ada lr (Z.of_nat dim) l1 l2 f coef) (14 * dim + 16) (fun _ => True).
Proof.
  intros HC HN HCG H1 H2. replace (14 * dim + 16)%nat with (S (S (S (S (2 * dim + (S (S (12 * dim + (S (2 + (S (2 + (2 + 2))))))))))))) by lia.
  unfold p_ada. cbn -[p_dot p_ada_loop p_sub p_add Nat.add Nat.mul]. split; [exact H1|]. split; [exact H2|]. split; [lia|]. split; [lia|].
  rewrite Nat2Z.id.
  eapply safe_bind; [apply dot_safe; auto; lia|]. intros s _.
  cbn -[p_ada_loop p_sub p_add Nat.add Nat.mul]. split; [lia|]. split; [lia|]. intros b1 _. split; [lia|]. split; [lia|]. intros b2 _.
  eapply safe_bind; [apply ada_loop_safe; auto; lia|]. intros _ _.
  cbn -[p_sub p_add Nat.add Nat.mul]. split; [lia|]. split; [lia|]. intros q1 _.
  eapply safe_bind; [apply sub_safe; lia|]. intros _ _.
  cbn -[p_sub p_add Nat.add Nat.mul]. split; [lia|]. split; [lia|]. intros q2 _.
  eapply safe_bind; [apply sub_safe; lia|]. intros _ _.
  eapply safe_bind; [apply addg_safe; lia|]. intros _ _. apply addg_safe; lia.
Qed.

Definition item_cost (ada : bool) (dim : nat) : nat := if ada then 2 * (14 * dim + 16) else 2 * (8 * dim + 8).

Lemma items_safe ada lr dim V items : cp = S dim -> (ada = true -> ng = np /\ cg = cp) -> np = (2 * V)%nat ->
  Forall (fun it => 0 <= it_l1 it < Z.of_nat V /\ 0 <= it_l2 it < Z.of_nat V) items ->
  safe (p_items ada lr (Z.of_nat dim) (Z.of_nat V) items) (length items * item_cost ada dim) (fun _ => True).
Proof.
  intros HC HA HN. induction 1 as [|it items (H1 & H2) HF IH]; [exact I|].
  cbn [length Nat.mul p_items]. eapply safe_bind; [|intros _ _; exact IH].
  unfold p_item. destruct ada; cbn [item_cost].
  - destruct (HA eq_refl) as (E1 & E2). replace (2 * (14 * dim + 16))%nat with ((14 * dim + 16) + (14 * dim + 16))%nat by lia.
    eapply safe_bind; [apply ada_safe; auto; lia|]. intros _ _. apply ada_safe; auto; lia.
  - replace (2 * (8 * dim + 8))%nat with ((8 * dim + 8) + (8 * dim + 8))%nat by lia.
    eapply safe_bind; [apply sgd_safe; auto; lia|]. intros _ _. apply sgd_safe; auto; lia.
Qed.

(** ** Windows and visits *)
Lemma win_safe {St} (body : Z -> St -> prog St) (I : St -> Prop) b len pos window :
  (forall c st, 0 <= c < len -> I st -> safe (body c st) b I) ->
  forall n a st, I st -> safe (p_win_loop body len pos window n a st) (n * b) I.
Proof.
  intros HB n. induction n as [|n IH]; intros a st HI; [exact HI|]. cbn [p_win_loop Nat.mul].
  eapply safe_bind; [|intros r Hr; apply IH; exact Hr].
  destruct (a =? window); [exact HI|]. cbn zeta.
  destruct (Z.ltb_spec (pos - window + a) 0); [exact HI|]. rewrite Z.geb_leb. destruct (Z.leb_spec len (pos - window + a)); [exact HI|].
  cbn. apply HB; auto; lia.
Qed.

Lemma windowed_safe {St} (body : Z -> St -> prog St) (I : St -> Prop) b len pos window del st :
  (forall c st, 0 <= c < len -> I st -> safe (body c st) b I) -> 1 <= window -> 0 <= del -> I st ->
  safe (p_windowed body len pos window del st) ((2 * Z.to_nat window + 1) * b) I.
Proof.
  intros HB Hw Hd HI. unfold p_windowed. eapply safe_mono; [apply win_safe with (b := b); auto| |auto].
  apply Nat.mul_le_mono_r. lia.
Qed.

Lemma visit_safe samples train b len : forall todo pos, 0 <= pos -> pos + Z.of_nat (length todo) = len ->
  Forall (fun id => (id < length samples)%nat) todo ->
  (forall p, 0 <= p < len -> safe (train p) b (fun _ => True)) ->
  safe (p_visit samples train pos todo) (length todo * (1 + b)) (fun _ => True).
Proof.
  induction todo as [|id todo IH]; intros pos Hp HL HF HT; [exact I|]. inversion HF as [|? ? Hid HF']; subst.
  cbn [length Nat.mul p_visit]. cbn [Nat.add safe]. intros x.
  unfold trial. destruct (nth_error samples id) as [s|] eqn:E; [|apply nth_error_None in E; lia].
  eapply safe_bind; [|intros _ _; apply IH; auto; cbn [length] in *; lia].
  destruct (fgt s x); [apply HT; cbn [length] in *; lia|exact I].
Qed.

Lemma zindex_in {A} (l : list A) i : 0 <= i < Z.of_nat (length l) -> exists x, zindex l i = Some x /\ In x l.
Proof.
  intros H. unfold zindex. destruct (Z.ltb_spec i 0); [lia|].
  destruct (nth_error l (Z.to_nat i)) as [x|] eqn:E; [|apply nth_error_None in E; lia].
  exists x. split; [reflexivity|]. eapply nth_error_In; eauto.
Qed.

(** ** LexVec *)
Section Lex.
Variables (dim V : nat) (items : list (Z * f64)) (window neg : Z).
Hypothesis Hnp : np = (2 * V)%nat.
Hypothesis Hcp : cp = dim.
Hypothesis HV : Z.of_nat V < 2 ^ 63.
Hypothesis Hw : 1 <= window < 2 ^ 63.

Lemma update_safe l1 l2 f : 0 <= l1 < Z.of_nat np -> 0 <= l2 < Z.of_nat np -> safe (p_lex_update (Z.of_nat dim) l1 l2 f) (8 * dim + 1) (fun _ => True).
Proof.
  intros H1 H2. replace (8 * dim + 1)%nat with (2 * dim + S (6 * dim))%nat by lia. unfold p_lex_update. rewrite Nat2Z.id.
  eapply safe_bind; [apply dot_safe; auto; lia|]. intros s _. cbn -[Nat.mul]. intros x. apply pairs_safe; auto; lia.
Qed.

Lemma lex_negatives_safe w : 0 <= w < Z.of_nat V -> forall n, safe (p_lex_negatives (Z.of_nat dim) items (Z.of_nat V) w n) (n * (8 * dim + 4)) (fun _ => True).
Proof.
  intros Hw' n. induction n as [|n IH]; [exact I|].
  replace (S n * (8 * dim + 4))%nat with (3 + ((8 * dim + 1) + n * (8 * dim + 4)))%nat by lia. cbn [p_lex_negatives].
  eapply safe_bind; [apply next_safe; lia|]. intros s Hs. cbn beta in Hs.
  eapply safe_bind; [apply update_safe; lia|]. intros _ _. exact IH.
Qed.

Definition lex_word_cost : nat := 3 + (2 * Z.to_nat window + 1) * (8 * dim + 1 + Z.to_nat neg * (8 * dim + 4)).

Lemma lex_worker_safe samples doc : Forall (fun id => (id < V)%nat) doc -> (V <= length samples)%nat ->
  safe (p_lex_worker (Z.of_nat dim) items (Z.of_nat V) window neg samples doc) (length doc * (1 + lex_word_cost)) (fun _ => True).
Proof.
  intros HD HS. apply visit_safe with (len := Z.of_nat (length doc)); [lia|lia| |].
  { eapply Forall_impl; [|exact HD]. cbn. intros; lia. }
  intros p Hp. unfold p_lex_train_one, lex_word_cost.
  eapply safe_bind; [apply next_safe; lia|]. intros del Hdel. cbn beta in Hdel. rewrite map_length.
  apply windowed_safe with (I := fun _ => True); [|lia|lia|exact I].
  intros c [] Hc _. unfold p_lex_body.
  assert (HZ : forall q, 0 <= q < Z.of_nat (length doc) -> exists x, zindex (map Z.of_nat doc) q = Some x /\ 0 <= x < Z.of_nat V).
  { intros q Hq. destruct (zindex_in (map Z.of_nat doc) q) as (x & E & HI); [rewrite map_length; exact Hq|].
    exists x. split; [exact E|]. apply in_map_iff in HI as (y & <- & HI). rewrite Forall_forall in HD. specialize (HD y HI). lia. }
  destruct (HZ p Hp) as (w & -> & Hw1). destruct (HZ c Hc) as (u & -> & Hu).
  eapply safe_bind; [apply update_safe; lia|]. intros _ _. apply lex_negatives_safe; lia.
Qed.
End Lex.

(** ** word2vec *)
Section W2v.
Variables (dim V : nat) (window neg : Z).
Hypothesis Hnp : np = V.
Hypothesis Hng : ng = V.
Hypothesis Hcp : cp = dim.
Hypothesis Hcg : cg = dim.
Hypothesis HV : Z.of_nat V < 2 ^ 63.
Hypothesis Hw : 1 <= window < 2 ^ 63.
Hypothesis HQ : forall x, Q x.
Hypothesis HLk : forall x, fle x (fopp max_exp) = false -> fge x max_exp = false -> Lk x.

Definition src_ok (c : vsrc) : Prop := match c with Shared r => 0 <= r < Z.of_nat V | Own v => length v = dim end.
Definition vec_ok (v : list f64) : Prop := length v = dim.

Lemma src_safe c i : src_ok c -> 0 <= i < Z.of_nat dim -> safe (p_src c i) 1 (fun _ => True).
Proof.
  destruct c as [r|v]; cbn; intros Hc Hi.
  - repeat split; try lia; auto.
  - destruct (zindex_in v i) as (x & -> & _); [lia|]. exact I.
Qed.

Lemma inner_safe picked c : 0 <= picked < Z.of_nat V -> src_ok c -> forall n i acc, 0 <= i -> i + Z.of_nat n <= Z.of_nat dim ->
  safe (p_inner picked c n i acc) (2 * n) (fun _ => True).
Proof.
  intros H1 H2 n. induction n as [|n IH]; intros i acc Hi Hn; [exact I|].
  replace (2 * S n)%nat with (S (1 + 2 * n)) by lia. cbn -[Nat.mul Nat.add p_src].
  split; [lia|]. split; [lia|]. intros a _. eapply safe_bind; [apply src_safe; auto; lia|]. intros b _. apply IH; lia.
Qed.

Lemma grad_safe label lr inner : safe (p_grad label lr inner) 1 (fun _ => True).
Proof.
  unfold p_grad. destruct (fle inner (fopp max_exp)) eqn:E1; [exact I|]. destruct (fge inner max_exp) eqn:E2; [exact I|].
  cbn. split; [apply HLk; auto|auto].
Qed.

Lemma apply_safe picked c g : 0 <= picked < Z.of_nat V -> src_ok c -> forall n i tmp, 0 <= i -> i + Z.of_nat n <= Z.of_nat dim -> vec_ok tmp ->
  safe (p_apply picked c g n i tmp) (4 * n) vec_ok.
Proof.
  intros H1 H2 n. induction n as [|n IH]; intros i tmp Hi Hn HT; [exact HT|]. unfold vec_ok in HT.
  replace (4 * S n)%nat with (S (S (1 + S (4 * n)))) by lia. cbn -[Nat.mul Nat.add p_src].
  split; [lia|]. split; [lia|]. intros r _. destruct (zindex_in tmp i) as (t & -> & _); [lia|].
  cbn -[Nat.mul Nat.add p_src]. split; [lia|]. split; [lia|]. intros r' _.
  eapply safe_bind; [apply src_safe; auto; lia|]. intros b _. cbn -[Nat.mul Nat.add].
  split; [lia|]. split; [lia|]. split; [auto|]. apply IH; try lia. unfold vec_ok. rewrite upd_length. exact HT.
Qed.

Lemma ns_step_safe lr c label picked tmp : 0 <= picked < Z.of_nat V -> src_ok c -> vec_ok tmp ->
  safe (p_ns_step lr dim c label picked tmp) (6 * dim + 2) vec_ok.
Proof.
  intros H1 H2 HT. replace (6 * dim + 2)%nat with (S (2 * dim + (1 + 4 * dim))) by lia. unfold p_ns_step. cbn -[Nat.mul Nat.add].
  split; [lia|]. eapply safe_bind; [apply inner_safe; auto; lia|]. intros x _.
  eapply safe_bind; [apply grad_safe|]. intros g _. apply apply_safe; auto; lia.
Qed.

Lemma ns_negatives_safe lr c id : 0 <= id < Z.of_nat V -> src_ok c -> forall n tmp, vec_ok tmp ->
  safe (p_ns_negatives lr dim c (Z.of_nat V) id n tmp) (n * (6 * dim + 5)) vec_ok.
Proof.
  intros H1 H2 n. induction n as [|n IH]; intros tmp HT; [exact HT|].
  replace (S n * (6 * dim + 5))%nat with (3 + ((6 * dim + 2) + n * (6 * dim + 5)))%nat by lia. cbn [p_ns_negatives].
  eapply safe_bind; [apply next_safe; lia|]. intros s Hs. cbn beta in Hs. destruct (id =? s).
  - eapply safe_mono; [apply IH; exact HT|lia|auto].
  - eapply safe_bind; [apply ns_step_safe; auto|]. intros t Ht. apply IH; exact Ht.
Qed.

Definition optim_cost : nat := (6 * dim + 2) + Z.to_nat neg * (6 * dim + 5).

Lemma ns_optim_safe lr c id tmp : 0 <= id < Z.of_nat V -> src_ok c -> vec_ok tmp ->
  safe (p_ns_optim neg lr dim c (Z.of_nat V) id tmp) optim_cost vec_ok.
Proof.
  intros H1 H2 HT. unfold p_ns_optim, optim_cost. destruct (neg <=? -1); [exact HT|].
  eapply safe_bind; [apply ns_step_safe; auto|]. intros t Ht. apply ns_negatives_safe; auto.
Qed.

Lemma add_row_safe row tmp : 0 <= row < Z.of_nat V -> vec_ok tmp -> forall n i, 0 <= i -> i + Z.of_nat n <= Z.of_nat dim ->
  safe (p_add_row row n i tmp) (2 * n) (fun _ => True).
Proof.
  intros H1 HT n. unfold vec_ok in HT. induction n as [|n IH]; intros i Hi Hn; [exact I|].
  replace (2 * S n)%nat with (S (S (2 * n))) by lia. cbn -[Nat.mul]. split; [lia|]. split; [lia|]. intros x _.
  destruct (zindex_in tmp i) as (t & -> & _); [lia|]. cbn -[Nat.mul]. split; [lia|]. split; [lia|]. split; [discriminate|]. apply IH; lia.
Qed.

Lemma collect_safe row : 0 <= row < Z.of_nat V -> forall n i agg, 0 <= i -> i + Z.of_nat n <= Z.of_nat dim -> vec_ok agg ->
  safe (p_collect row n i agg) n vec_ok.
Proof.
  intros H1 n. induction n as [|n IH]; intros i agg Hi Hn HT; [exact HT|]. cbn. unfold vec_ok in HT.
  destruct (zindex_in agg i) as (t & -> & _); [lia|]. cbn. split; [lia|]. split; [lia|]. intros x _.
  apply IH; try lia. unfold vec_ok. rewrite upd_length. exact HT.
Qed.

Lemma doc_in doc : Forall (fun id => (id < V)%nat) doc -> forall q, 0 <= q < Z.of_nat (length doc) ->
  exists x, zindex (map Z.of_nat doc) q = Some x /\ 0 <= x < Z.of_nat V.
Proof.
  intros HD q Hq. destruct (zindex_in (map Z.of_nat doc) q) as (x & E & HI); [rewrite map_length; exact Hq|].
  exists x. split; [exact E|]. apply in_map_iff in HI as (y & <- & HI). rewrite Forall_forall in HD. specialize (HD y HI). lia.
Qed.

Definition sg_cost : nat := 3 + (2 * Z.to_nat window + 1) * (1 + (optim_cost + 2 * dim)).
Definition cb_cost : nat :=
  (3 + (2 * Z.to_nat window + 1) * (1 + dim)) + (optim_cost + (3 + (2 * Z.to_nat window + 1) * (1 + 2 * dim))).

Lemma zero_ok (v : list f64) : vec_ok v -> vec_ok (map (fun _ => fzero) v).
Proof. unfold vec_ok. now rewrite map_length. Qed.

Lemma sg_safe lr doc tmp pos : Forall (fun id => (id < V)%nat) doc -> vec_ok tmp -> 0 <= pos < Z.of_nat (length doc) ->
  safe (p_sg_train_one neg lr dim (Z.of_nat V) window (map Z.of_nat doc) tmp pos) sg_cost (fun _ => True).
Proof.
  intros HD HT Hp. unfold p_sg_train_one, sg_cost. eapply safe_bind; [apply next_safe; lia|]. intros del Hd. cbn beta in Hd.
  replace ((2 * Z.to_nat window + 1) * (1 + (optim_cost + 2 * dim)))%nat with ((2 * Z.to_nat window + 1) * (1 + (optim_cost + 2 * dim)) + 0)%nat by lia.
  eapply safe_bind; [|intros r _; exact I]. rewrite map_length.
  apply windowed_safe with (I := vec_ok); [|lia|lia|exact HT].
  intros c st Hc HI. unfold p_sg_body. destruct (doc_in doc HD c Hc) as (u & -> & Hu). destruct (doc_in doc HD pos Hp) as (w & -> & Hw1).
  cbn -[Nat.mul p_add_row p_ns_optim]. split; [lia|].
  eapply safe_bind; [apply ns_optim_safe; [exact Hw1|exact Hu|apply zero_ok, HI]|]. intros t Ht.
  replace (2 * dim)%nat with (2 * dim + 0)%nat by lia. eapply safe_bind; [apply add_row_safe; auto; lia|]. intros _ _. exact Ht.
Qed.

Lemma cb_safe lr doc agg tmp pos : Forall (fun id => (id < V)%nat) doc -> vec_ok agg -> vec_ok tmp -> 0 <= pos < Z.of_nat (length doc) ->
  safe (p_cb_train_one neg lr dim (Z.of_nat V) window (map Z.of_nat doc) agg tmp pos) cb_cost (fun _ => True).
Proof.
  intros HD HA HT Hp. unfold p_cb_train_one, cb_cost, p_dowith.
  eapply safe_bind with (P := vec_ok).
  { eapply safe_bind; [apply next_safe; lia|]. intros del Hd. cbn beta in Hd. rewrite map_length.
    apply windowed_safe with (I := vec_ok); [|lia|lia|apply zero_ok, HA].
    intros c st Hc HI. unfold p_cb_aggregate. destruct (doc_in doc HD c Hc) as (u & -> & Hu).
    cbn -[p_collect]. split; [lia|]. apply collect_safe; auto; lia. }
  intros agg' HA'. destruct (doc_in doc HD pos Hp) as (w & -> & Hw1).
  eapply safe_bind; [apply ns_optim_safe; [exact Hw1|exact HA'|apply zero_ok, HT]|]. intros t Ht.
  replace (3 + (2 * Z.to_nat window + 1) * (1 + 2 * dim))%nat with ((3 + (2 * Z.to_nat window + 1) * (1 + 2 * dim)) + 0)%nat by lia.
  eapply safe_bind; [|intros r _; exact I].
  eapply safe_bind; [apply next_safe; lia|]. intros del Hd. cbn beta in Hd. rewrite map_length.
  apply windowed_safe with (I := vec_ok); [|lia|lia|exact Ht].
  intros c st Hc HI. unfold p_cb_update. destruct (doc_in doc HD c Hc) as (u & -> & Hu).
  cbn -[p_add_row Nat.mul]. split; [lia|]. replace (2 * dim)%nat with (2 * dim + 0)%nat by lia.
  eapply safe_bind; [apply add_row_safe; auto; lia|]. intros _ _. exact HI.
Qed.

Lemma w2v_worker_safe cbow samples agg tmp doc : Forall (fun id => (id < V)%nat) doc -> (V <= length samples)%nat -> vec_ok agg -> vec_ok tmp ->
  safe (p_w2v_worker cbow neg dim (Z.of_nat V) window samples agg tmp doc)
       (length doc * (2 + (if cbow then cb_cost else sg_cost))) (fun _ => True).
Proof.
  intros HD HS HA HT. apply visit_safe with (len := Z.of_nat (length doc)) (b := S (if cbow then cb_cost else sg_cost)); [lia|lia| |].
  { eapply Forall_impl; [|exact HD]. cbn. intros; lia. }
  intros p Hp. cbn. intros lr. destruct cbow; [apply cb_safe|apply sg_safe]; auto.
Qed.
End W2v.
End Safe.
