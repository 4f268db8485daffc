(** Safety of the goroutines of Model/RaceHS.v under all interleavings. *)
From Coq Require Import Lia.
From Verif.Lib Require Import Go F64 F64Facts ListFacts Tac.
From Verif.Model Require Import ModelUtil Matrix Cells Huffman Subsample Sigmoid RaceHS.
From Verif.Spec Require Import Rows Race RaceHS.
From Verif.Proofs Require Import Matrix Word2vec Cells ModelUtil.
From Verif.Proofs Require Race RaceHSSeq.
Local Open Scope Z_scope.

Lemma doc_in V doc : Forall (fun id => (id < V)%nat) doc -> forall q, 0 <= q < Z.of_nat (length doc) ->
  exists x, zindex (map Z.of_nat doc) q = Some x /\ 0 <= x < Z.of_nat V.
Proof.
  intros HD q Hq. destruct (Race.zindex_in (map Z.of_nat doc) q) as (x & E & HI); [rewrite map_length; exact Hq|].
  exists x. split; [exact E|]. apply in_map_iff in HI as (y & <- & HI). rewrite Forall_forall in HD. specialize (HD y HI). lia.
Qed.

Section Safe.
Variables (V dim : nat) (lens : list nat).
(** What is known of the caches, and the accesses that may fail. *)
Variable J : list (option hdr) -> list (list (option nat)) -> Prop.
Variable risk : forall A, (f64 -> hmem -> outcome (hmem * A)) -> Prop.
Hypothesis Hlens : forall n, (nth n lens 0 <= dim)%nat.

Definition inv (m : hmem) : Prop := shaped V dim lens m /\ J (hm_cache m) (hm_arrays m).

Fixpoint hsafe {R} (p : hprog R) (Post : R -> Prop) : Prop :=
  match p with
  | HRet r => Post r
  | HPanic => False
  | HAct rnd f k => forall x m, inv m ->
      match f x m with Ret (m', a) => inv m' /\ hsafe (k a) Post | Err _ => False | Panic => risk _ f end
  end.

Lemma hsafe_mono {R} (p : hprog R) : forall (P P' : R -> Prop), hsafe p P -> (forall r, P r -> P' r) -> hsafe p P'.
Proof.
  induction p as [r| |A rnd f k IH]; intros P P' HS HP; cbn [hsafe] in *; auto.
  intros x m HI. specialize (HS x m HI). destruct (f x m) as [[m' a]|e|]; auto. destruct HS as (H1 & H2). split; [exact H1|]. eapply IH; eauto.
Qed.

Lemma hsafe_bind {R S} (f : R -> hprog S) (Post : S -> Prop) (p : hprog R) : forall P : R -> Prop,
  hsafe p P -> (forall r, P r -> hsafe (f r) Post) -> hsafe (hbind p f) Post.
Proof.
  induction p as [r| |A rnd a k IH]; intros P HS HP; cbn [hsafe hbind] in *; auto.
  intros x m HI. specialize (HS x m HI). destruct (a x m) as [[m' b]|e|]; auto. destruct HS as (H1 & H2). split; [exact H1|]. eapply IH; eauto.
Qed.

(** A read that succeeds. *)
Lemma hsafe_get {R A} rnd (f : f64 -> hmem -> outcome (hmem * A)) (k : A -> hprog R) (Post : R -> Prop) (P : A -> Prop) :
  (forall x m, inv m -> exists a, f x m = Ret (m, a) /\ P a) -> (forall a, P a -> hsafe (k a) Post) -> hsafe (HAct rnd f k) Post.
Proof. intros HF HK. cbn [hsafe]. intros x m HI. destruct (HF x m HI) as (a & -> & HP). split; [exact HI|]. auto. Qed.
(** A write. *)
Lemma hsafe_set {R A} rnd (f : f64 -> hmem -> outcome (hmem * A)) (k : A -> hprog R) (Post : R -> Prop) :
  (forall x m, inv m -> exists m' a, f x m = Ret (m', a) /\ inv m') -> (forall a, hsafe (k a) Post) -> hsafe (HAct rnd f k) Post.
Proof. intros HF HK. cbn [hsafe]. intros x m HI. destruct (HF x m HI) as (m' & a & -> & HP). split; [exact HP|]. auto. Qed.

(** ** Executions *)
Lemma hexec_safe {R} (p : hprog R) Post m x : inv m -> hsafe p Post -> hdone p = false ->
  (exists m' p', hexec x m p = Ret (m', p') /\ inv m' /\ hsafe p' Post) \/ (hexec x m p = Panic /\ match p with HAct rnd f k => risk _ f | _ => False end).
Proof.
  intros HI HS HD. destruct p as [r| |A rnd f k]; cbn in *; try discriminate; try tauto.
  specialize (HS x m HI). destruct (f x m) as [[m' a]|e|]; cbn; [left; exists m', (k a); tauto|tauto|right; auto].
Qed.

Lemma runs_inv (ts : list (hprog unit)) m s : Forall (fun p => hsafe p (fun _ => True)) ts -> inv m -> hruns (HSys m ts) s ->
  inv (hy_mem s) /\ Forall (fun p => hsafe p (fun _ => True)) (hy_threads s).
Proof.
  intros HT HI HR. remember (HSys m ts) as s0 eqn:E0. induction HR as [s|s s' s'' HR IH HS]; subst; [auto|].
  destruct (IH eq_refl) as (HI' & HT'). inversion HS as [m1 ts1 i p x EN ED EQ1 EQ2|m1 ts1 lr EQ1 EQ2]; subst s'; cbn [hy_mem hy_threads] in *.
  - rewrite Forall_forall in HT'. pose proof (HT' p (nth_error_In _ _ EN)) as HP.
    destruct (hexec_safe p _ m1 x HI' HP ED) as [(m' & p' & E & HI2 & HP2)|(E & _)]; rewrite E in EQ2; cbn [obind] in EQ2; [|discriminate EQ2].
    assert (s'' = HSys m' (upd ts1 i p')) by congruence. subst s''. cbn [hy_mem hy_threads]. split; [exact HI2|].
    apply RaceHSSeq.Forall_upd; [apply Forall_forall; exact HT'|exact HP2].
  - subst s''. cbn [hy_mem hy_threads]. split; [|exact HT']. exact HI'.
Qed.

Lemma survives_safe (ts : list (hprog unit)) m : Forall (fun p => hsafe p (fun _ => True)) ts -> inv m -> hsurvives inv risk ts m.
Proof.
  intros HT HI.
  assert (HA : forall k s, hduring ts m k s -> inv (hy_mem s) /\ Forall (fun p => hsafe p (fun _ => True)) (hy_threads s)).
  { intros k s HD. induction HD as [s HR|k s s' HD IH Hdone HR]; [eapply runs_inv; eauto|]. destruct IH as (IH & _). eapply runs_inv; eauto. }
  intros k s HD. destruct (HA k s HD) as (H1 & H2). split; [exact H1|]. intros i p x EN ED.
  rewrite Forall_forall in H2. destruct (hexec_safe p _ (hy_mem s) x H1 (H2 p (nth_error_In _ _ EN)) ED) as [(m' & p' & E & _)|(_ & E)]; [left; eauto|right; exact E].
Qed.

(** ** The accesses *)
Lemma slice_ok row x m : inv m -> 0 <= row < Z.of_nat V -> exists a, a_slice row x m = Ret (m, a).
Proof.
  intros (((rows & EP & A & L) & _) & _) Hr. unfold a_slice, get_or_panic. rewrite EP.
  pose proof (of_rows_slice dim rows (Z.to_nat row) A ltac:(lia)) as E. rewrite Z2Nat.id in E by lia. rewrite E. cbn. eauto.
Qed.
Lemma param_ok row i x m : inv m -> 0 <= row < Z.of_nat V -> 0 <= i < Z.of_nat dim -> exists a, a_param row i x m = Ret (m, a).
Proof.
  intros (((rows & EP & A & L) & _) & _) Hr Hi. unfold a_param, get_or_panic. rewrite EP.
  pose proof (cell_at dim rows (Z.to_nat row) (Z.to_nat i) A ltac:(lia) ltac:(lia)) as E. rewrite !Z2Nat.id in E by lia. rewrite E. cbn. eauto.
Qed.
Lemma set_param_ok row i y x m : inv m -> 0 <= row < Z.of_nat V -> 0 <= i < Z.of_nat dim -> exists m' a, a_set_param row i y x m = Ret (m', a) /\ inv m'.
Proof.
  intros (((rows & EP & A & L) & HV & HN) & HJ) Hr Hi. unfold a_set_param. rewrite EP.
  pose proof (set_cell_at dim rows (Z.to_nat row) (Z.to_nat i) y A ltac:(lia) ltac:(lia)) as E. rewrite !Z2Nat.id in E by lia. rewrite E. cbn [obind].
  eexists _, tt. split; [reflexivity|]. destruct (put_ok dim rows (Z.to_nat row) (Z.to_nat i) y A) as (A' & L').
  split; [|exact HJ]. split; [|split; assumption]. cbn [hm_p]. exists (put rows (Z.to_nat row) (Z.to_nat i) y). split; [reflexivity|]. split; [exact A'|]. lia.
Qed.
Lemma vec_len n m : inv m -> length (nth n (hm_vecs m) []) = nth n lens 0%nat.
Proof. intros ((_ & E & _) & _). rewrite <- E. change 0%nat with (length (@nil f64)). rewrite map_nth. reflexivity. Qed.
Lemma vec_ok n j x m : inv m -> 0 <= j < Z.of_nat (nth n lens 0%nat) -> exists a, a_vec n j x m = Ret (m, a).
Proof.
  intros HI Hj. unfold a_vec, get_or_panic. destruct (Race.zindex_in (nth n (hm_vecs m) []) j) as (v & E & _); [rewrite vec_len by exact HI; exact Hj|].
  rewrite E. cbn. eauto.
Qed.
Lemma set_vec_ok n j y x m : inv m -> 0 <= j < Z.of_nat (nth n lens 0%nat) -> exists m' a, a_set_vec n j y x m = Ret (m', a) /\ inv m'.
Proof.
  intros HI Hj. unfold a_set_vec. destruct (Race.zindex_in (nth n (hm_vecs m) []) j) as (v & E & _); [rewrite vec_len by exact HI; exact Hj|].
  rewrite E. eexists _, tt. split; [reflexivity|]. destruct HI as ((HP & HV & HN) & HJ). split; [|exact HJ]. split; [exact HP|]. split; [|exact HN]. cbn [hm_vecs].
  rewrite RaceHSSeq.map_upd, upd_length. rewrite <- (map_nth (@length f64)). cbn [length]. rewrite RaceHSSeq.upd_nth. exact HV.
Qed.
Lemma set_next_ok z x m : inv m -> is_uint64 z -> exists m' a, a_set_next z x m = Ret (m', a) /\ inv m'.
Proof. intros ((HP & HV & HN) & HJ) Hz. unfold a_set_next. eexists _, tt. split; [reflexivity|]. split; [|exact HJ]. split; [exact HP|]. split; [exact HV|exact Hz]. Qed.

(** ** The programs *)
Variable tree : heap.
Variable sig : f64 -> outcome f64.
Hypothesis Hsig : forall y, fle y (fopp max_exp) = false -> fge y max_exp = false ->
  (exists s, sig y = Ret s) \/ (sig y = Panic /\ risk f64 (get_or_panic (fun _ => sig y))).
Variables (set : list nat) (depth : Z).
Hypothesis Hset : length set = V.
(** A path that can be followed. *)
Definition walkable (hd : hdr) : Prop :=
  forall cache arrays i, J cache arrays -> (i < s_len hd)%nat -> nth i (nth (s_arr hd) arrays []) None = None -> risk nat (a_node None).
Hypothesis Hpath : forall n, In n set -> hsafe (h_getpath tree n depth) walkable.
Variable window : Z.
Hypothesis HVb : Z.of_nat V < 2 ^ 63.
Hypothesis Hw : 1 <= window < 2 ^ 63.

Lemma next_safe v : 1 <= v < 2 ^ 63 -> hsafe (h_next_random v) (fun r => 0 <= r < v).
Proof.
  intros Hv. unfold h_next_random. apply hsafe_get with (P := fun z => is_uint64 z).
  { intros x m ((_ & _ & HN) & _). unfold get. eexists. split; [reflexivity|exact HN]. }
  intros z Hz. apply hsafe_set. { intros x m HI. apply set_next_ok; [exact HI|]. unfold is_uint64. pose proof (lcg_range z). unfold W64 in *. lia. }
  intros _. apply hsafe_get with (P := fun z => is_uint64 z).
  { intros x m ((_ & _ & HN) & _). unfold get. eexists. split; [reflexivity|exact HN]. }
  intros z' Hz'. cbv zeta. rewrite (Z.mod_small v) by (unfold W64; lia). destruct (Z.eqb_spec v 0); [lia|]. cbn [hsafe].
  assert (0 <= z' mod v < v) by (apply Z.mod_pos_bound; lia).
  unfold int_of_u64. destruct (Z.ltb_spec (z' mod v) (2 ^ 63)); lia.
Qed.

Definition src_ok (c : hsrc) : Prop := match c with HShared r => 0 <= r < Z.of_nat V | HOwn v => length v = dim end.
Definition vec_dim (v : list f64) : Prop := length v = dim.

Lemma src_safe c i : src_ok c -> 0 <= i < Z.of_nat dim -> hsafe (h_src c i) (fun _ => True).
Proof.
  destruct c as [r|v]; cbn [src_ok h_src]; intros Hc Hi.
  - apply hsafe_get with (P := fun _ => True); [|cbn; auto]. intros x m HI. destruct (param_ok r i x m HI Hc Hi) as (a & E). eauto.
  - destruct (Race.zindex_in v i) as (x & -> & _); [lia|]. exact I.
Qed.

Lemma inner_safe p c : src_ok c -> forall n j acc, 0 <= j -> j + Z.of_nat n <= Z.of_nat (nth p lens 0%nat) -> hsafe (h_inner p c n j acc) (fun _ => True).
Proof.
  intros Hc n. pose proof (Hlens p). induction n as [|n IH]; intros j acc Hj Hn; [exact I|]. cbn [h_inner].
  eapply hsafe_bind; [apply src_safe; [exact Hc|lia]|]. intros b _. apply hsafe_get with (P := fun _ => True).
  { intros x m HI. destruct (vec_ok p j x m HI ltac:(lia)) as (a & E). eauto. }
  intros a _. apply IH; lia.
Qed.

Lemma apply_safe p c g : src_ok c -> forall n j tmp, 0 <= j -> j + Z.of_nat n <= Z.of_nat (nth p lens 0%nat) -> vec_dim tmp -> hsafe (h_apply p c g n j tmp) vec_dim.
Proof.
  intros Hc n. pose proof (Hlens p). induction n as [|n IH]; intros j tmp Hj Hn HT; [exact HT|]. cbn [h_apply]. unfold vec_dim in HT.
  assert (HV : forall x m, inv m -> exists a, a_vec p j x m = Ret (m, a) /\ True).
  { intros x m HI. destruct (vec_ok p j x m HI ltac:(lia)) as (a & E). eauto. }
  apply hsafe_get with (P := fun _ => True); [exact HV|]. intros v _.
  destruct (Race.zindex_in tmp j) as (t & -> & _); [lia|].
  apply hsafe_get with (P := fun _ => True); [exact HV|]. intros v' _.
  eapply hsafe_bind; [apply src_safe; [exact Hc|lia]|]. intros b _.
  apply hsafe_set; [intros x m HI; apply set_vec_ok; [exact HI|lia]|]. intros _. apply IH; try lia. unfold vec_dim. rewrite upd_length. exact HT.
Qed.

Lemma node_safe {R} e (k : nat -> hprog R) Post : (e = None -> risk nat (a_node None)) -> (forall p, hsafe (k p) Post) -> hsafe (HAct false (a_node e) k) Post.
Proof. intros HE HK. cbn [hsafe]. intros x m HI. unfold a_node, get_or_panic. destruct e as [p|]; cbn [obind]; [auto|]. apply HE. reflexivity. Qed.

Lemma hs_loop_safe lr c path : src_ok c -> walkable path -> forall n i tmp, (n + i <= pred (s_len path))%nat -> vec_dim tmp ->
  hsafe (h_hs_loop tree sig lr c path n i tmp) vec_dim.
Proof.
  intros Hc HW n. induction n as [|n IH]; intros i tmp Hi HT; [exact HT|]. cbn [h_hs_loop].
  assert (HE : forall q, (q < s_len path)%nat -> forall x m, inv m -> exists e, a_elem path q x m = Ret (m, e) /\ (e = None -> risk nat (a_node None))).
  { intros q Hq x m (_ & HJ). unfold a_elem, get. eexists. split; [reflexivity|]. apply (HW _ _ q HJ Hq). }
  apply hsafe_get with (P := fun e => e = None -> risk nat (a_node None)); [apply HE; lia|]. intros e He.
  apply hsafe_get with (P := fun e => e = None -> risk nat (a_node None)); [apply HE; lia|]. intros e' He'.
  apply node_safe; [exact He'|]. intros q. apply node_safe; [exact He|]. intros p.
  apply hsafe_get with (P := fun l => l = nth p lens 0%nat).
  { intros x m HI. unfold a_veclen, get. eexists. split; [reflexivity|]. apply vec_len, HI. }
  intros l ->. eapply hsafe_bind; [apply inner_safe; [exact Hc|lia|lia]|]. intros s _.
  destruct (fle s (fopp max_exp)) eqn:E1; [exact HT|]. destruct (fge s max_exp) eqn:E2; [exact HT|]. cbn [orb].
  destruct (Hsig s E1 E2) as [(y & Ey)|(Ey & HR)].
  - apply hsafe_get with (P := fun _ => True). { intros x m HI. unfold get_or_panic. rewrite Ey. cbn. eauto. }
    intros z _. cbv zeta. eapply hsafe_bind; [apply apply_safe; [exact Hc|lia|lia|exact HT]|]. intros t Ht. apply IH; [lia|exact Ht].
  - cbn [hsafe]. intros x m HI. assert (EP : get_or_panic (fun _ : hmem => sig s) x m = Panic) by (unfold get_or_panic; rewrite Ey; reflexivity). rewrite EP. exact HR.
Qed.

Lemma optim_safe lr c id tmp : 0 <= id < Z.of_nat V -> src_ok c -> vec_dim tmp -> hsafe (h_optim tree sig set depth lr c id tmp) vec_dim.
Proof.
  intros Hid Hc HT. unfold h_optim. destruct (Race.zindex_in set id) as (n & -> & HI); [lia|].
  eapply hsafe_bind; [apply Hpath; exact HI|]. intros hd HW. apply hs_loop_safe; auto. lia.
Qed.

Lemma win_safe {St} (body : Z -> St -> hprog St) (P : St -> Prop) len pos win :
  (forall c st, 0 <= c < len -> P st -> hsafe (body c st) P) -> forall n a st, P st -> hsafe (h_win_loop body len pos win n a st) P.
Proof.
  intros HB n. induction n as [|n IH]; intros a st HI; [exact HI|]. cbn [h_win_loop].
  eapply hsafe_bind; [|intros r Hr; apply IH; exact Hr].
  destruct (a =? win); [exact HI|]. cbn zeta.
  destruct (Z.ltb_spec (pos - win + a) 0); [exact HI|]. rewrite Z.geb_leb. destruct (Z.leb_spec len (pos - win + a)); [exact HI|].
  cbn [orb]. apply HB; auto; lia.
Qed.

Lemma add_row_safe row tmp : 0 <= row < Z.of_nat V -> vec_dim tmp -> forall n i, 0 <= i -> i + Z.of_nat n <= Z.of_nat dim -> hsafe (h_add_row row n i tmp) (fun _ => True).
Proof.
  intros H1 HT n. unfold vec_dim in HT. induction n as [|n IH]; intros i Hi Hn; [exact I|]. cbn [h_add_row].
  apply hsafe_get with (P := fun _ => True). { intros x m HI. destruct (param_ok row i x m HI H1 ltac:(lia)) as (a & E). eauto. }
  intros y _. destruct (Race.zindex_in tmp i) as (t & -> & _); [lia|].
  apply hsafe_set; [intros x m HI; apply set_param_ok; [exact HI|exact H1|lia]|]. intros _. apply IH; lia.
Qed.

Lemma collect_safe row : 0 <= row < Z.of_nat V -> forall n i agg, 0 <= i -> i + Z.of_nat n <= Z.of_nat dim -> vec_dim agg -> hsafe (h_collect row n i agg) vec_dim.
Proof.
  intros H1 n. induction n as [|n IH]; intros i agg Hi Hn HT; [exact HT|]. cbn [h_collect]. unfold vec_dim in HT.
  destruct (Race.zindex_in agg i) as (t & -> & _); [lia|].
  apply hsafe_get with (P := fun _ => True). { intros x m HI. destruct (param_ok row i x m HI H1 ltac:(lia)) as (a & E). eauto. }
  intros y _. apply IH; try lia. unfold vec_dim. rewrite upd_length. exact HT.
Qed.

Lemma zero_dim (v : list f64) : vec_dim v -> vec_dim (map (fun _ => fzero) v).
Proof. unfold vec_dim. now rewrite map_length. Qed.

Lemma slice_safe {R} row (k : list f64 -> hprog R) Post : 0 <= row < Z.of_nat V -> (forall v, hsafe (k v) Post) -> hsafe (HAct false (a_slice row) k) Post.
Proof. intros Hr HK. apply hsafe_get with (P := fun _ => True); [|auto]. intros x m HI. destruct (slice_ok row x m HI Hr) as (a & E). eauto. Qed.

Lemma sg_safe lr doc tmp pos : Forall (fun id => (id < V)%nat) doc -> vec_dim tmp -> 0 <= pos < Z.of_nat (length doc) ->
  hsafe (h_sg_train_one tree sig set depth lr dim window (map Z.of_nat doc) tmp pos) (fun _ => True).
Proof.
  intros HD HT Hp. unfold h_sg_train_one. eapply hsafe_bind; [apply next_safe; lia|]. intros del _.
  eapply hsafe_bind; [|intros r _; exact I]. rewrite map_length. unfold h_windowed.
  apply win_safe with (P := vec_dim); [|exact HT].
  intros c st Hc HI. unfold h_sg_body. destruct (doc_in V doc HD c Hc) as (u & -> & Hu). destruct (doc_in V doc HD pos Hp) as (w & -> & Hw1).
  apply slice_safe; [exact Hu|]. intros _.
  eapply hsafe_bind; [apply optim_safe; [exact Hw1|exact Hu|apply zero_dim, HI]|]. intros t Ht.
  eapply hsafe_bind; [apply add_row_safe; auto; lia|]. intros _ _. exact Ht.
Qed.

Lemma cb_safe lr doc agg tmp pos : Forall (fun id => (id < V)%nat) doc -> vec_dim agg -> vec_dim tmp -> 0 <= pos < Z.of_nat (length doc) ->
  hsafe (h_cb_train_one tree sig set depth lr dim window (map Z.of_nat doc) agg tmp pos) (fun _ => True).
Proof.
  intros HD HA HT Hp. unfold h_cb_train_one. cbv zeta. unfold h_dowith.
  eapply hsafe_bind with (P := vec_dim).
  { eapply hsafe_bind; [apply next_safe; lia|]. intros del _. rewrite map_length. unfold h_windowed.
    apply win_safe with (P := vec_dim); [|apply zero_dim, HA].
    intros c st Hc HI. unfold h_cb_aggregate. destruct (doc_in V doc HD c Hc) as (u & -> & Hu).
    apply slice_safe; [exact Hu|]. intros _. apply collect_safe; auto; lia. }
  intros agg' HA'. destruct (doc_in V doc HD pos Hp) as (w & -> & Hw1).
  eapply hsafe_bind; [apply optim_safe; [exact Hw1|exact HA'|apply zero_dim, HT]|]. intros t Ht.
  eapply hsafe_bind; [|intros r _; exact I].
  eapply hsafe_bind; [apply next_safe; lia|]. intros del _. rewrite map_length. unfold h_windowed.
  apply win_safe with (P := vec_dim); [|exact Ht].
  intros c st Hc HI. unfold h_cb_update. destruct (doc_in V doc HD c Hc) as (u & -> & Hu).
  apply slice_safe; [exact Hu|]. intros _. eapply hsafe_bind; [apply add_row_safe; auto; lia|]. intros _ _. exact HI.
Qed.

Lemma visit_safe samples train len : forall todo pos, 0 <= pos -> pos + Z.of_nat (length todo) = len ->
  Forall (fun id => (id < length samples)%nat) todo -> (forall p, 0 <= p < len -> hsafe (train p) (fun _ => True)) ->
  hsafe (h_visit samples train pos todo) (fun _ => True).
Proof.
  induction todo as [|id todo IH]; intros pos Hp HL HF HT; [exact I|]. inversion HF as [|? ? Hid HF']; subst.
  cbn [h_visit]. apply hsafe_get with (P := fun _ => True). { intros x m HI. unfold a_rand. eauto. }
  intros x _. unfold trial. destruct (nth_error samples id) as [s|] eqn:E; [|apply nth_error_None in E; lia].
  eapply hsafe_bind; [|intros _ _; apply IH; auto; cbn [length] in *; lia].
  destruct (fgt s x); [apply HT; cbn [length] in *; lia|exact I].
Qed.

Lemma worker_safe cbow samples agg tmp doc : Forall (fun id => (id < V)%nat) doc -> (V <= length samples)%nat -> vec_dim agg -> vec_dim tmp ->
  hsafe (h_worker tree sig cbow set depth dim window samples agg tmp doc) (fun _ => True).
Proof.
  intros HD HS HA HT. unfold h_worker. apply visit_safe with (len := Z.of_nat (length doc)); [lia|lia| |].
  { eapply Forall_impl; [|exact HD]. cbn. intros; lia. }
  intros p Hp. apply hsafe_get with (P := fun _ => True). { intros x m HI. unfold get. eauto. }
  intros lr _. destruct cbow; [apply cb_safe|apply sg_safe]; auto.
Qed.
End Safe.

(** ** GetPath *)
Section Cold.
Variables (V dim : nat) (lens : list nat) (tree : heap) (sig : f64 -> outcome f64).
Let J := fun (_ : list (option hdr)) (_ : list (list (option nat))) => True.
Let safe {R} := @hsafe V dim lens J (path_risk sig) R.
Let inv := inv V dim lens J.

Lemma put_ok' m n hd arrays : inv m -> inv (put_cache m n hd arrays).
Proof. intros (H & _). split; [exact H|exact I]. Qed.

Lemma appends_safe n : forall up, safe (h_appends n up) (fun _ => True).
Proof.
  induction up as [|p up IH]; [exact I|]. cbn [h_appends]. unfold safe. apply hsafe_set; [|intros _; exact IH].
  intros x m HI. unfold a_append. cbv zeta. destruct (_ <? _)%nat; eexists _, tt; (split; [reflexivity|apply put_ok'; exact HI]).
Qed.
Lemma reverse_safe hd : forall fuel i, safe (h_reverse hd fuel i) (fun _ => True).
Proof.
  induction fuel as [|fuel IH]; intros i; [exact I|]. cbn [h_reverse]. unfold safe. apply hsafe_set; [|intros _; apply IH].
  intros x m (HI & _). unfold a_swap. eexists _, tt. split; [reflexivity|]. split; [exact HI|exact I].
Qed.
Lemma cut_step_safe n d (Post : hdr -> Prop) : (forall h, Post h) -> safe (HAct false (a_cut n d) HRet) Post.
Proof.
  intros HP. unfold safe. cbn [hsafe]. intros x m HI. unfold a_cut at 1, get_or_panic. cbv zeta. destruct (_ || _); cbn [obind]; [constructor|auto].
Qed.
Lemma cold_getpath n d (Post : hdr -> Prop) : (forall h, Post h) -> safe (h_getpath tree n d) Post.
Proof.
  intros HP. assert (HC : safe (h_cut n d) Post).
  { unfold safe, h_cut. apply hsafe_get with (P := fun _ => True). { intros x m HI. unfold a_len, get. eauto. }
    intros len _. destruct (d >? len); [|apply cut_step_safe; exact HP].
    apply hsafe_get with (P := fun _ => True). { intros x m HI. unfold a_len, get. eauto. }
    intros len' _. apply cut_step_safe; exact HP. }
  unfold safe, h_getpath. apply hsafe_get with (P := fun _ => True). { intros x m HI. unfold a_is_nil, get. eauto. }
  intros b _. destruct b; [|exact HC].
  apply hsafe_set. { intros x m HI. unfold a_make. eexists _, tt. split; [reflexivity|]. apply put_ok', HI. }
  intros _. eapply hsafe_bind; [apply appends_safe|]. intros _ _.
  apply hsafe_get with (P := fun _ => True). { intros x m HI. unfold a_header, get. eauto. }
  intros hd _. eapply hsafe_bind; [apply reverse_safe|]. intros _ _. exact HC.
Qed.
End Cold.

Section Warm.
Variables (V dim : nat) (lens : list nat) (tree : heap) (sig : f64 -> outcome f64).
Variables (c0 : list (option hdr)) (a0 : list (list (option nat))) (depth : Z).
Definition still (c : list (option hdr)) (a : list (list (option nat))) : Prop := c = c0 /\ a = a0.
Hypothesis Hd : 0 <= depth.

Lemma warm_getpath n hd l : nth n c0 None = Some hd -> denotes a0 hd l ->
  hsafe V dim lens still (lookup_risk sig) (h_getpath tree n depth) (walkable still (lookup_risk sig)).
Proof.
  intros Hc (D1 & D2 & D3 & D4 & D5).
  assert (HH : forall m, inv V dim lens still m -> header m n = hd) by (intros m (_ & E & _); unfold header; rewrite E, Hc; reflexivity).
  assert (HC : forall d x m, inv V dim lens still m -> 0 <= d <= Z.of_nat (s_len hd) -> exists h, a_cut n d x m = Ret (m, h) /\ (h = Hdr (s_arr hd) (Z.to_nat d) (s_cap hd) /\ 0 <= d <= Z.of_nat (s_len hd))).
  { intros d x m HI HB. unfold a_cut, get_or_panic. cbv zeta. rewrite (HH m HI). destruct (Z.ltb_spec d 0); [lia|].
    destruct (d >? Z.of_nat (s_cap hd)) eqn:E; [apply Z.gtb_lt in E; lia|]. cbn. eauto. }
  assert (HW : forall h d, h = Hdr (s_arr hd) (Z.to_nat d) (s_cap hd) /\ 0 <= d <= Z.of_nat (s_len hd) -> walkable still (lookup_risk sig) h).
  { intros h d (-> & HB). intros c a i (_ & ->) Hi. cbn [s_len s_arr GetPathRace.s_len GetPathRace.s_arr] in *. intros E. exfalso.
    pose proof (RaceHSSeq.nth_elements a0 hd i) as NE. destruct (Nat.ltb_spec i (s_len hd)); [|lia]. rewrite E, D4 in NE.
    rewrite (nth_indep _ None (Some 0%nat)) in NE by (rewrite map_length; lia). rewrite map_nth in NE. discriminate NE. }
  unfold h_getpath. apply hsafe_get with (P := fun b => b = false).
  { intros x m (_ & E & _). unfold a_is_nil, get. rewrite E, Hc. eauto. }
  intros b ->. unfold h_cut. apply hsafe_get with (P := fun z => z = Z.of_nat (s_len hd)).
  { intros x m HI. unfold a_len, get. rewrite (HH m HI). eauto. }
  intros len ->. destruct (Z.gtb_spec depth (Z.of_nat (s_len hd))).
  - apply hsafe_get with (P := fun z => z = Z.of_nat (s_len hd)).
    { intros x m HI. unfold a_len, get. rewrite (HH m HI). eauto. }
    intros len ->. eapply hsafe_get; [intros x m HI; apply HC; [exact HI|lia]|]. intros h Hh. eapply HW, Hh.
  - eapply hsafe_get; [intros x m HI; apply HC; [exact HI|lia]|]. intros h Hh. eapply HW, Hh.
Qed.
End Warm.

(** ** Termination *)
Definition sub {R} (q p : hprog R) : Prop := match p with HAct rnd f k => exists a, q = k a | _ => False end.
Lemma sub_wf {R} (p : hprog R) : Acc sub p.
Proof. induction p as [r| |A rnd f k IH]; constructor; intros q HQ; cbn [sub] in HQ; try contradiction. destruct HQ as (a & ->). apply IH. Qed.

Definition less {R} (ts' ts : list (hprog R)) : Prop := exists i p p', nth_error ts i = Some p /\ sub p' p /\ ts' = upd ts i p'.
Lemma less_cons {R} (ts : list (hprog R)) : Acc less ts -> forall p, Acc less (p :: ts).
Proof.
  induction 1 as [ts _ IHts]. intros p. induction (sub_wf p) as [p _ IHp]. constructor. intros y (i & q & q' & E & HS & ->).
  destruct i as [|i]; cbn [nth_error upd] in *.
  - assert (q = p) by congruence. subst q. apply IHp, HS.
  - apply IHts. exists i, q, q'. auto.
Qed.
Lemma less_wf {R} (ts : list (hprog R)) : Acc less ts.
Proof.
  induction ts as [|p ts IH]; [|apply less_cons, IH]. constructor. intros y ([|i] & q & q' & E & _); discriminate E.
Qed.
Lemma turn_less s s' : turn s s' -> less (hy_threads s') (hy_threads s).
Proof.
  intros (lr & i & p & x & m' & p' & E & HD & HX & ->). exists i, p, p'. split; [exact E|]. split; [|reflexivity].
  destruct p as [r| |A rnd f k]; cbn [hdone hexec sub] in *; try discriminate. destruct (f _ _) as [[m1 a]|e|]; cbn [obind] in HX; try discriminate HX. exists a. congruence.
Qed.
Lemma no_endless (run : nat -> hsystem) : ~ (forall n, turn (run n) (run (S n))).
Proof.
  intros H. assert (HA : forall ts, Acc less ts -> forall n, hy_threads (run n) = ts -> False).
  { intros ts HA. induction HA as [ts _ IH]. intros n E. eapply (IH (hy_threads (run (S n)))); [|reflexivity]. rewrite <- E. apply turn_less, H. }
  eapply (HA (hy_threads (run 0%nat))); [apply less_wf|reflexivity].
Qed.
