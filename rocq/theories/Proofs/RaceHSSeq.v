(** A goroutine of word2vec with hierarchical softmax that runs alone computes what the sequential model says. *)
From Coq Require Import Lia.
From Verif.Lib Require Import Go F64 ListFacts Tac.
From Verif.Model Require Import Dictionary ModelUtil Matrix Cells Huffman Window Subsample Sigmoid Word2vec Options Train Run RaceHS.
From Verif.Spec Require Import Rows Training Cells Sequential OneGoroutine RaceHS.
From Verif.Proofs Require Import Matrix Word2vec Cells ModelUtil.
From Verif.Proofs Require RaceSeq.
Local Open Scope Z_scope.

Lemma bind_ret {A} (o : outcome A) : obind o Ret = o.
Proof. destruct o; reflexivity. Qed.

Section Alone.
Variables (tree : heap) (sig : f64 -> outcome f64) (rand : nat -> f64) (dim : nat).
Notation hrun := (hrun rand).

Lemma hrun_bind {R S : Type} (f : R -> hprog S) (p : hprog R) : forall k m,
  hrun (hbind p f) k m = obind (hrun p k m) (fun '(k', m', r) => hrun (f r) k' m').
Proof.
  induction p as [r| |A rnd a q IH]; intros k m; cbn [hbind RaceHS.hrun]; auto.
  rewrite RaceSeq.obind_assoc. apply RaceSeq.obind_ext. intros [m' x] _. apply IH.
Qed.

(** The program [p] does what [o] says: the results are related by [Q]. *)
Definition sim {R T} (p : hprog R) (k : nat) (m : hmem) (o : outcome T) (Q : T -> nat -> hmem -> R -> Prop) : Prop :=
  match o with
  | Ret t => exists k' m' r, hrun p k m = Ret (k', m', r) /\ Q t k' m' r
  | Err e => hrun p k m = Err e
  | Panic => hrun p k m = Panic
  end.

Lemma sim_bind {R S T U} (p : hprog R) (f : R -> hprog S) (k : nat) (m : hmem) (o : outcome T) (g : T -> outcome U) Q Q' :
  sim p k m o Q -> (forall t k' m' r, o = Ret t -> Q t k' m' r -> sim (f r) k' m' (g t) Q') ->
  sim (hbind p f) k m (obind o g) Q'.
Proof.
  unfold sim. intros H1 H2. rewrite hrun_bind. destruct o as [t|e|]; cbn [obind].
  - destruct H1 as (k' & m' & r & E & HQ). specialize (H2 t k' m' r eq_refl HQ). rewrite E. cbn [obind]. exact H2.
  - rewrite H1. reflexivity.
  - rewrite H1. reflexivity.
Qed.
Lemma sim_ret {R T} (r : R) k m (t : T) (Q : T -> nat -> hmem -> R -> Prop) : Q t k m r -> sim (HRet r) k m (Ret t) Q.
Proof. intros H. exists k, m, r. split; [reflexivity|exact H]. Qed.
Lemma sim_weaken {R T} (p : hprog R) k m (o : outcome T) (Q Q' : T -> nat -> hmem -> R -> Prop) :
  sim p k m o Q -> (forall t k' m' r, o = Ret t -> Q t k' m' r -> Q' t k' m' r) -> sim p k m o Q'.
Proof. unfold sim. intros H1 H2. destruct o as [t|e|]; auto. destruct H1 as (k' & m' & r & E & HQ). exists k', m', r. eauto. Qed.
(** A step of the program that matches no step of the model. *)
Lemma sim_act {R T A} (rnd : bool) (f : f64 -> hmem -> outcome (hmem * A)) (q : A -> hprog R) (k : nat) m m' a (o : outcome T) Q :
  f (rand k) m = Ret (m', a) -> sim (q a) (if rnd then S k else k) m' o Q -> sim (HAct rnd f q) k m o Q.
Proof.
  unfold sim. intros E H. cbn [RaceHS.hrun]. rewrite E. cbn [obind]. exact H.
Qed.

Lemma sim_run {R S T} (p : hprog R) (f : R -> hprog S) (k : nat) (m : hmem) k1 m1 r1 (o : outcome T) Q :
  hrun p k m = Ret (k1, m1, r1) -> sim (f r1) k1 m1 o Q -> sim (hbind p f) k m o Q.
Proof. unfold sim. intros E H. rewrite hrun_bind, E. cbn [obind]. exact H. Qed.

(** ** GetPath *)
Definition same_rest (m m' : hmem) : Prop := hm_p m' = hm_p m /\ hm_vecs m' = hm_vecs m /\ hm_next m' = hm_next m /\ hm_lr m' = hm_lr m.
Lemma same_rest_refl m : same_rest m m.
Proof. unfold same_rest; auto. Qed.
Lemma same_rest_trans m1 m2 m3 : same_rest m1 m2 -> same_rest m2 m3 -> same_rest m1 m3.
Proof. unfold same_rest. intros (A & B & C & D) (E & F & G & H). repeat split; congruence. Qed.

(** Only node [n]'s cache and arrays from [lo] on may have changed. *)
Definition only (n lo : nat) (m m' : hmem) : Prop :=
  same_rest m m' /\ length (hm_cache m') = length (hm_cache m) /\ (forall j, j <> n -> nth j (hm_cache m') None = nth j (hm_cache m) None) /\
  (length (hm_arrays m) <= length (hm_arrays m'))%nat /\ (forall j, (j < lo)%nat -> nth j (hm_arrays m') [] = nth j (hm_arrays m) []).
Lemma only_trans n lo m1 m2 m3 : only n lo m1 m2 -> only n lo m2 m3 -> only n lo m1 m3.
Proof.
  intros (A & B & C & D & E) (A' & B' & C' & D' & E'). split; [eapply same_rest_trans; eauto|]. split; [congruence|]. split; [intros; rewrite C'; auto|].
  split; [lia|]. intros; rewrite E'; auto.
Qed.
Lemma only_refl n lo m : only n lo m m.
Proof. split; [apply same_rest_refl|]. auto. Qed.

Definition cached (n : nat) (lo : nat) (l : list nat) (m : hmem) : Prop :=
  exists hd, nth n (hm_cache m) None = Some hd /\ (lo <= s_arr hd)%nat /\ denotes (hm_arrays m) hd l.

Lemma nth_upd_same {A} (l : list A) i x d : (i < length l)%nat -> nth i (upd l i x) d = x.
Proof. intros H. rewrite nth_upd, Nat.eqb_refl. destruct (Nat.ltb_spec i (length l)); [reflexivity|lia]. Qed.
Lemma nth_upd_other {A} (l : list A) i j x d : j <> i -> nth j (upd l i x) d = nth j l d.
Proof. intros H. rewrite nth_upd. destruct (Nat.eqb_spec i j); [lia|reflexivity]. Qed.

Lemma nth_firstn {A} (l : list A) d : forall n i, nth i (firstn n l) d = if (i <? n)%nat then nth i l d else d.
Proof. induction l as [|x l IH]; intros [|n] [|i]; cbn [firstn nth]; try reflexivity; [destruct (_ <? _)%nat; reflexivity|]. rewrite IH. reflexivity. Qed.

Lemma put_only m n h arrays lo : (n < length (hm_cache m))%nat -> (length (hm_arrays m) <= length arrays)%nat ->
  (forall j, (j < lo)%nat -> nth j arrays [] = nth j (hm_arrays m) []) -> only n lo m (put_cache m n h arrays).
Proof.
  intros Hn HL HA. split; [unfold same_rest; cbn; auto|]. cbn. rewrite upd_length. split; [reflexivity|]. split; [intros; apply nth_upd_other; auto|]. auto.
Qed.

Lemma hrun_append n p l lo k m : (n < length (hm_cache m))%nat -> (lo <= length (hm_arrays m))%nat -> cached n lo l m ->
  exists m', a_append n p (rand k) m = Ret (m', tt) /\ only n lo m m' /\ cached n lo (l ++ [p]) m'.
Proof.
  intros Hn Hlo (hd & EC & Hhd & (D1 & D2 & D3 & D4 & D5)). unfold a_append, header. rewrite EC. cbn zeta.
  destruct (Nat.ltb_spec (s_len hd) (s_cap hd)) as [HL|HL].
  - eexists. split; [reflexivity|]. split.
    + apply put_only; [exact Hn|rewrite upd_length; lia|]. intros j Hj. apply nth_upd_other. lia.
    + eexists. cbn [put_cache hm_cache hm_arrays]. split; [apply nth_upd_same; exact Hn|]. cbn [s_arr]. split; [exact Hhd|].
      unfold denotes, elements. cbn [s_arr s_len s_cap]. rewrite upd_length. rewrite nth_upd_same by exact D1. rewrite upd_length.
      split; [exact D1|]. split; [exact D2|]. split; [lia|]. split; [|rewrite app_length; cbn; lia].
      unfold elements in D4. rewrite map_app, <- D4.
      set (arr := nth (s_arr hd) (hm_arrays m) []) in *. apply (nth_ext _ _ None None).
      { rewrite app_length, !firstn_length, upd_length. cbn [length map]. lia. }
      intros j Hj. rewrite firstn_length, upd_length in Hj. rewrite nth_firstn. destruct (Nat.ltb_spec j (S (s_len hd))); [|lia].
      destruct (Nat.eq_dec j (s_len hd)) as [->|].
      * rewrite nth_upd_same by lia. rewrite app_nth2 by (rewrite firstn_length; lia). rewrite firstn_length. replace (s_len hd - _)%nat with 0%nat by lia. reflexivity.
      * rewrite nth_upd_other by auto. rewrite app_nth1 by (rewrite firstn_length; lia). rewrite nth_firstn. destruct (Nat.ltb_spec j (s_len hd)); [reflexivity|lia].
  - assert (HE : s_len hd = s_cap hd) by lia. eexists. split; [reflexivity|].
    set (cap' := if (s_cap hd =? 0)%nat then 1%nat else (2 * s_cap hd)%nat). assert (HC : (S (s_len hd) <= cap')%nat).
    { unfold cap'. destruct (Nat.eqb_spec (s_cap hd) 0); lia. }
    split.
    + apply put_only; [exact Hn|rewrite app_length; lia|]. intros j Hj. apply app_nth1. lia.
    + eexists. cbn [put_cache hm_cache hm_arrays]. split; [apply nth_upd_same; exact Hn|]. cbn [s_arr]. split; [lia|].
      unfold denotes, elements. cbn [s_arr s_len s_cap]. rewrite app_nth2, Nat.sub_diag by lia. cbn [nth].
      unfold elements in D4. rewrite !app_length. cbn [length]. rewrite repeat_length, firstn_length.
      split; [lia|]. split; [lia|]. split; [lia|]. split; [|lia].
      rewrite map_app, <- D4. set (arr := nth (s_arr hd) (hm_arrays m) []) in *.
      rewrite firstn_app, firstn_firstn, firstn_length. replace (Nat.min (S (s_len hd)) (s_len hd)) with (s_len hd) by lia.
      replace (S (s_len hd) - Nat.min (s_len hd) (length arr))%nat with 1%nat by lia. reflexivity.
Qed.

Lemma hrun_appends n lo k : forall up l m, (n < length (hm_cache m))%nat -> (lo <= length (hm_arrays m))%nat -> cached n lo l m ->
  exists m', hrun (h_appends n up) k m = Ret (k, m', tt) /\ only n lo m m' /\ cached n lo (l ++ up) m'.
Proof.
  induction up as [|p up IH]; intros l m Hn Hlo HC.
  - exists m. split; [reflexivity|]. split; [apply only_refl|]. rewrite app_nil_r. exact HC.
  - destruct (hrun_append n p l lo k m Hn Hlo HC) as (m1 & E1 & O1 & C1). cbn [h_appends RaceHS.hrun]. rewrite E1. cbn [obind].
    pose proof O1 as (_ & L1 & _ & L2 & _).
    destruct (IH (l ++ [p]) m1) as (m2 & E2 & O2 & C2); [lia|lia|exact C1|].
    exists m2. split; [exact E2|]. split; [eapply only_trans; eauto|]. rewrite <- app_assoc in C2. exact C2.
Qed.

Lemma hrun_reverse hd k m0 : (s_arr hd < length (hm_arrays m0))%nat -> length (nth (s_arr hd) (hm_arrays m0) []) = s_cap hd -> (s_len hd <= s_cap hd)%nat ->
  forall fuel i m, (i + fuel = Nat.div2 (s_len hd))%nat -> hm_cache m = hm_cache m0 -> length (hm_arrays m) = length (hm_arrays m0) -> length (nth (s_arr hd) (hm_arrays m) []) = s_cap hd ->
  exists m', hrun (h_reverse hd fuel i) k m = Ret (k, m', tt) /\ same_rest m m' /\ hm_cache m' = hm_cache m /\ length (hm_arrays m') = length (hm_arrays m) /\
    length (nth (s_arr hd) (hm_arrays m') []) = s_cap hd /\
    (forall j, j <> s_arr hd -> nth j (hm_arrays m') [] = nth j (hm_arrays m) []) /\
    (forall j, nth j (nth (s_arr hd) (hm_arrays m') []) None =
       let a := nth (s_arr hd) (hm_arrays m) [] in if ((i <=? j) && (j + i <? s_len hd))%nat then nth (s_len hd - 1 - j) a None else nth j a None).
Proof.
  intros H1 H2 H3. induction fuel as [|fuel IH]; intros i m Hi EC EL EA.
  - exists m. split; [reflexivity|]. split; [apply same_rest_refl|]. split; [auto|]. split; [auto|]. split; [auto|]. split; [auto|]. intros j. cbv zeta.
    destruct ((i <=? j) && (j + i <? s_len hd))%nat eqn:E; [|reflexivity]. apply andb_prop in E. destruct E as (E1 & E2). apply Nat.leb_le in E1. apply Nat.ltb_lt in E2.
    f_equal. rewrite (Nat.div2_odd (s_len hd)) in E2 |- *. destruct (Nat.odd (s_len hd)); cbn [Nat.b2n] in *; lia.
  - cbn [h_reverse RaceHS.hrun a_swap obind]. set (a := nth (s_arr hd) (hm_arrays m) []) in *.
    set (a1 := upd (upd a i (nth (s_len hd - 1 - i) a None)) (s_len hd - 1 - i) (nth i a None)).
    set (m1 := HMem (hm_p m) (hm_vecs m) (hm_cache m) (upd (hm_arrays m) (s_arr hd) a1) (hm_next m) (hm_lr m)).
    assert (EA1 : nth (s_arr hd) (hm_arrays m1) [] = a1) by (cbn; apply nth_upd_same; lia).
    destruct (IH (S i) m1) as (m' & E & R & C & L & A & O & N); [lia|exact EC|cbn; rewrite upd_length; exact EL|rewrite EA1; unfold a1; rewrite !upd_length; exact EA|].
    exists m'. split; [exact E|]. split; [exact R|]. split; [exact C|]. split; [rewrite L; cbn; apply upd_length|]. split; [exact A|].
    split; [intros j Hj; rewrite O by auto; cbn; apply nth_upd_other; auto|].
    intros j. rewrite N. cbv zeta. rewrite EA1. pose proof (Nat.div2_odd (s_len hd)) as HD.
    assert (HI : (i < s_len hd - 1 - i)%nat) by (destruct (Nat.odd (s_len hd)); cbn [Nat.b2n] in *; lia).
    assert (N1 : forall x, nth x a1 None = if (x =? i)%nat then nth (s_len hd - 1 - i) a None else if (x =? s_len hd - 1 - i)%nat then nth i a None else nth x a None).
    { intros x. unfold a1. destruct (Nat.eqb_spec x i) as [->|].
      - rewrite nth_upd_other by lia. apply nth_upd_same. lia.
      - destruct (Nat.eqb_spec x (s_len hd - 1 - i)) as [->|]; [apply nth_upd_same; rewrite upd_length; lia|]. rewrite !nth_upd_other by auto. reflexivity. }
    rewrite !N1.
    destruct (Nat.leb_spec (S i) j), (Nat.ltb_spec (j + S i) (s_len hd)), (Nat.leb_spec i j), (Nat.ltb_spec (j + i) (s_len hd)); cbn [andb]; try lia;
      repeat match goal with |- context [(?x =? ?y)%nat] => destruct (Nat.eqb_spec x y); try lia end; try reflexivity; f_equal; lia.
Qed.

Lemma nth_elements arrays hd j : nth j (elements arrays hd) None = if (j <? s_len hd)%nat then nth j (nth (s_arr hd) arrays []) None else None.
Proof. unfold elements. rewrite nth_firstn. reflexivity. Qed.

Lemma hrun_cut n d lo l k m : cached n lo l m ->
  let d' := if d >? Z.of_nat (length l) then Z.of_nat (length l) else d in
  if d' <? 0 then hrun (h_cut n d) k m = Panic
  else exists hd, hrun (h_cut n d) k m = Ret (k, m, hd) /\ denotes (hm_arrays m) hd (firstn (Z.to_nat d') l).
Proof.
  intros (hd & EC & Hhd & (D1 & D2 & D3 & D4 & D5)) d'.
  assert (E : hrun (h_cut n d) k m = hrun (HAct false (a_cut n d') HRet) k m).
  { unfold h_cut, d'. cbn [RaceHS.hrun a_len get obind]. unfold header. rewrite EC, D5. destruct (d >? Z.of_nat (length l)); [|reflexivity].
    cbn [RaceHS.hrun a_len get obind]. unfold header. rewrite EC, D5. reflexivity. }
  rewrite E. cbn [RaceHS.hrun]. unfold a_cut, get_or_panic, header. rewrite EC. cbn zeta.
  assert (Hd' : d' <= Z.of_nat (length l)) by (unfold d'; destruct (d >? Z.of_nat (length l)) eqn:G; [lia|rewrite Z.gtb_ltb in G; apply Z.ltb_ge in G; lia]).
  destruct (Z.ltb_spec d' 0); cbn [orb obind]; [reflexivity|].
  destruct (d' >? Z.of_nat (s_cap hd)) eqn:G; [rewrite Z.gtb_ltb in G; apply Z.ltb_lt in G; lia|]. cbn [obind RaceHS.hrun].
  eexists. split; [reflexivity|]. unfold denotes. cbn [s_arr s_len s_cap]. split; [exact D1|]. split; [exact D2|]. split; [lia|].
  split; [|rewrite firstn_length; lia]. unfold elements in *. cbn [s_arr s_len]. rewrite <- firstn_map, <- D4, firstn_firstn.
  f_equal. lia.
Qed.

Lemma path_up_same h : (forall n, hn_parent (hget h n) = hn_parent (hget tree n)) -> forall fuel n, path_up fuel h n = path_up fuel tree n.
Proof. intros H. induction fuel as [|fuel IH]; intros n; [reflexivity|]. cbn [path_up]. rewrite H. destruct (hn_parent (hget tree n)); [rewrite IH|]; reflexivity. Qed.

Lemma hget_upd (h : heap) n x j : hget (upd h n x) j = if (j =? n)%nat && (n <? length h)%nat then x else hget h j.
Proof. unfold hget. rewrite nth_upd. rewrite (Nat.eqb_sym n j). destruct (Nat.eqb_spec j n) as [->|]; [|reflexivity]. destruct (Nat.ltb_spec n (length h)); [reflexivity|]. cbn. rewrite nth_overflow by lia. reflexivity. Qed.

Lemma sim_getpath h n d P nx lr k m : grown dim tree h -> (n < length h)%nat -> holds h P nx lr m ->
  sim (h_getpath tree n d) k m (let '(h', o) := get_path h n d in obind o (fun path => Ret (h', path)))
    (fun '(h', path) k' m' hd => k' = k /\ grown dim tree h' /\ length h' = length h /\ holds h' P nx lr m' /\ denotes (hm_arrays m') hd path).
Proof.
  intros (G1 & G2 & G3) Hn (M1 & M2 & M3 & M4 & (CL & CC)). unfold get_path, h_getpath.
  pose proof (CC n) as Cn. destruct (hn_cache (hget h n)) as [l|] eqn:EC.
  - destruct (nth n (hm_cache m) None) as [hd|] eqn:EH; [|contradiction]. rewrite EC. cbv zeta.
    assert (HC : cached n 0 l m) by (exists hd; split; [exact EH|split; [lia|exact Cn]]).
    pose proof (hrun_cut n d 0 l k m HC) as HK. cbv zeta in HK. unfold sim. cbn [RaceHS.hrun a_is_nil get obind]. rewrite EH.
    destruct ((if d >? Z.of_nat (length l) then Z.of_nat (length l) else d) <? 0); cbn [obind]; [exact HK|].
    destruct HK as (hd' & E & D). exists k, m, hd'. split; [exact E|]. split; [reflexivity|]. split; [split; auto|]. split; [reflexivity|]. split; [split; auto|exact D].
    repeat split; auto.
  - destruct (nth n (hm_cache m) None) as [hd|] eqn:EH; [contradiction|].
    set (nd := HNode (Some (rev (path_up (length h) h n))) (hn_parent (hget h n)) (hn_val (hget h n)) (hn_code (hget h n)) (hn_vec (hget h n))).
    cbv zeta. rewrite hget_upd, Nat.eqb_refl. destruct (Nat.ltb_spec n (length h)); [|lia]. cbn [andb hn_cache nd].
    set (path := rev (path_up (length h) h n)). unfold sim. cbn [RaceHS.hrun a_is_nil get obind]. rewrite EH. cbn [RaceHS.hrun a_make obind].
    set (lo := length (hm_arrays m)).
    set (m1 := put_cache m n (Hdr lo 0 0) (hm_arrays m ++ [[]])).
    assert (O1 : only n lo m m1).
    { apply put_only; [lia|rewrite app_length; lia|]. intros j Hj. apply app_nth1. exact Hj. }
    assert (C1 : cached n lo [] m1).
    { exists (Hdr lo 0 0). cbn. split; [apply nth_upd_same; lia|]. split; [lia|]. unfold denotes, elements. cbn. rewrite app_length. cbn.
      rewrite app_nth2 by (unfold lo; lia). replace (lo - length (hm_arrays m))%nat with 0%nat by (unfold lo; lia). repeat split; unfold lo; cbn; lia. }
    destruct (hrun_appends n lo k (path_up (length tree) tree n) [] m1) as (m2 & E2 & O2 & C2); [destruct O1 as (_ & -> & _); lia|cbn; rewrite app_length; unfold lo; lia|exact C1|].
    rewrite hrun_bind, E2. cbn [obind app] in C2 |- *. cbn [RaceHS.hrun a_header get obind]. 
    destruct C2 as (hd & EH2 & Hlo & (D1 & D2 & D3 & D4 & D5)). unfold header. rewrite EH2.
    destruct (hrun_reverse hd k m2 D1 D2 D3 (Nat.div2 (s_len hd)) 0 m2 ltac:(lia) eq_refl eq_refl D2) as (m3 & E3 & R3 & K3 & L3 & A3 & N3 & V3).
    rewrite hrun_bind, E3. cbn [obind].
    pose proof (only_trans _ _ _ _ _ O1 O2) as O12.
    assert (EP : path = rev (path_up (length tree) tree n)) by (unfold path; rewrite G1, (path_up_same h) by apply G2; reflexivity).
    assert (LP : length path = s_len hd) by (rewrite EP, rev_length; lia).
    assert (C3 : cached n lo path m3).
    { exists hd. rewrite K3. split; [exact EH2|]. split; [exact Hlo|]. unfold denotes. split; [lia|]. split; [exact A3|]. split; [exact D3|]. split; [|lia].
      apply (nth_ext _ _ None None); [unfold elements; rewrite firstn_length, map_length; lia|]. intros j Hj.
      assert (Hj' : (j < s_len hd)%nat) by (unfold elements in Hj; rewrite firstn_length in Hj; lia).
      rewrite nth_elements. destruct (Nat.ltb_spec j (s_len hd)); [|lia]. rewrite V3. cbv zeta. cbn [Nat.leb andb]. rewrite Nat.add_0_r. destruct (Nat.ltb_spec j (s_len hd)); [|lia].
      rewrite EP, map_rev, <- D4. rewrite rev_nth by (unfold elements; rewrite firstn_length; lia).
      assert (LE : length (elements (hm_arrays m2) hd) = s_len hd) by (rewrite D4, map_length; lia). rewrite LE, nth_elements.
      destruct (Nat.ltb_spec (s_len hd - S j) (s_len hd)); [|lia]. f_equal. lia. }
    pose proof (hrun_cut n d lo path k m3 C3) as HK. cbv zeta in HK.
    destruct ((if d >? Z.of_nat (length path) then Z.of_nat (length path) else d) <? 0); cbn [obind]; [exact HK|].
    destruct HK as (hd' & E & D). exists k, m3, hd'. split; [exact E|]. split; [reflexivity|].
    assert (HG : forall j, hn_parent (hget (upd h n nd) j) = hn_parent (hget h j) /\ hn_code (hget (upd h n nd) j) = hn_code (hget h j) /\ hn_vec (hget (upd h n nd) j) = hn_vec (hget h j)).
    { intros j. rewrite hget_upd. destruct (Nat.eqb_spec j n) as [->|]; [|auto]. destruct (Nat.ltb_spec n (length h)); [|lia]. cbn. auto. }
    split; [|split; [apply upd_length|split; [|exact D]]].
    + split; [rewrite upd_length; exact G1|]. split; [intros j; destruct (HG j) as (-> & -> & _); apply G2|]. intros j. destruct (HG j) as (_ & _ & ->). apply G3.
    + destruct O12 as ((B1 & B2 & B3 & B4) & B5 & B6 & B7 & B8). destruct R3 as (F1 & F2 & F3 & F4).
      split; [congruence|]. split; [congruence|]. split; [congruence|]. split.
      * rewrite F2, B2, M4. apply (nth_ext _ _ [] []); [rewrite !map_length, upd_length; reflexivity|]. intros j Hj.
        change (@nil f64) with (hn_vec node0). rewrite !map_nth. symmetry. apply (HG j).
      * split; [rewrite upd_length; congruence|]. intros j. rewrite hget_upd. destruct (Nat.eqb_spec j n) as [->|].
        { destruct (Nat.ltb_spec n (length h)); [|lia]. cbn [andb nd hn_cache]. fold path. destruct C3 as (hd3 & X1 & _ & X2). rewrite X1. exact X2. }
        cbn [andb]. rewrite K3, B6 by auto. specialize (CC j). destruct (hn_cache (hget h j)), (nth j (hm_cache m) None); auto.
        destruct CC as (X1 & X2 & X3 & X4 & X5). fold lo in X1. unfold denotes, elements in *. assert (XA : nth (s_arr h0) (hm_arrays m3) [] = nth (s_arr h0) (hm_arrays m) []).
        { rewrite N3 by lia. rewrite B8 by lia. reflexivity. }
        rewrite XA. split; [lia|]. auto.
Qed.

(** ** The optimizer *)
Lemma skipn_cons {A} (l : list A) d : forall i, (i < length l)%nat -> skipn i l = nth i l d :: skipn (S i) l.
Proof. induction l as [|x l IH]; intros [|i] H; cbn [length] in H; try lia; [reflexivity|]. cbn [skipn nth]. rewrite (IH i) by lia. reflexivity. Qed.
Lemma upd_upd {A} (l : list A) : forall i x y, upd (upd l i x) i y = upd l i y.
Proof. induction l as [|a l IH]; intros [|i] x y; cbn; auto. rewrite IH. reflexivity. Qed.
Lemma upd_nth {A} (l : list A) d : forall i, upd l i (nth i l d) = l.
Proof. induction l as [|a l IH]; intros [|i]; cbn; auto. rewrite IH. reflexivity. Qed.
Lemma map_upd {A B} (f : A -> B) (l : list A) : forall i x, map f (upd l i x) = upd (map f l) i (f x).
Proof. induction l as [|a l IH]; intros [|i] x; cbn; auto. rewrite IH. reflexivity. Qed.

Lemma vacc_nth (g : f64 -> f64 -> f64) : forall src dst : list f64, (length src <= length dst)%nat ->
  exists out : list f64, vacc g dst src = Ret out /\ length out = length dst /\
    forall j, nth j out fzero = if (j <? length src)%nat then g (nth j dst fzero) (nth j src fzero) else nth j dst fzero.
Proof.
  induction src as [|s src IH]; intros [|d dst] H; cbn [length] in H; try lia.
  - exists []. split; [reflexivity|]. split; [reflexivity|]. intros j. destruct (j <? _)%nat eqn:E; [apply Nat.ltb_lt in E; cbn in E; lia|reflexivity].
  - exists (d :: dst). split; [reflexivity|]. split; [reflexivity|]. intros j. destruct (j <? _)%nat eqn:E; [apply Nat.ltb_lt in E; cbn in E; lia|reflexivity].
  - destruct (IH dst ltac:(lia)) as (out & E & L & N). exists (g d s :: out). cbn [vacc]. rewrite E. cbn [obind]. split; [reflexivity|]. split; [cbn [length]; lia|].
    intros [|j]; cbn [nth length]; [reflexivity|]. rewrite N. reflexivity.
Qed.

Definition hsrc_vec (rows : list (list f64)) (c : hsrc) : list f64 := match c with HShared r => nth (Z.to_nat r) rows [] | HOwn v => v end.
Definition hsrc_in (rows : list (list f64)) (c : hsrc) : Prop := match c with HShared r => 0 <= r < Z.of_nat (length rows) | HOwn v => length v = dim end.

Lemma hsrc_len rows c : all_len dim rows -> hsrc_in rows c -> length (hsrc_vec rows c) = dim.
Proof. destruct c; cbn; intros HA Hc; auto. apply all_len_nth; auto. lia. Qed.

Lemma hrun_src rows c i k m : hm_p m = of_rows dim rows -> all_len dim rows -> hsrc_in rows c -> (i < dim)%nat ->
  hrun (h_src c (Z.of_nat i)) k m = Ret (k, m, nth i (hsrc_vec rows c) fzero).
Proof.
  intros EM HA Hc Hi. destruct c as [r|v]; cbn [h_src RaceHS.hrun hsrc_in hsrc_vec] in *.
  - unfold a_param, get_or_panic. rewrite EM. pose proof (cell_at dim rows (Z.to_nat r) i HA ltac:(lia) Hi) as E. rewrite Z2Nat.id in E by lia. rewrite E. reflexivity.
  - rewrite zindex_nat. rewrite (nth_error_nth' _ fzero) by lia. reflexivity.
Qed.

Lemma a_vec_at p j x m : (j < length (nth p (hm_vecs m) []))%nat -> a_vec p (Z.of_nat j) x m = Ret (m, nth j (nth p (hm_vecs m) []) fzero).
Proof. intros H. unfold a_vec, get_or_panic. rewrite zindex_nat, (nth_error_nth' _ fzero) by exact H. reflexivity. Qed.

Lemma hrun_inner rows c p k m : hm_p m = of_rows dim rows -> all_len dim rows -> hsrc_in rows c -> (length (nth p (hm_vecs m) []) <= dim)%nat ->
  forall n i acc, (i + n = length (nth p (hm_vecs m) []))%nat ->
  exists s, hrun (h_inner p c n (Z.of_nat i) acc) k m = Ret (k, m, s) /\ vdot acc (skipn i (hsrc_vec rows c)) (skipn i (nth p (hm_vecs m) [])) = Ret s.
Proof.
  intros EM HA Hc HL. pose proof (hsrc_len rows c HA Hc) as LC. induction n as [|n IH]; intros i acc Hi.
  - exists acc. split; [reflexivity|]. rewrite (skipn_all2 (nth p (hm_vecs m) [])) by lia. destruct (skipn i (hsrc_vec rows c)); reflexivity.
  - cbn [h_inner]. rewrite hrun_bind, (hrun_src rows) by (auto; lia). cbn [obind RaceHS.hrun]. rewrite a_vec_at by lia. cbn [obind].
    replace (Z.of_nat i + 1) with (Z.of_nat (S i)) by lia.
    destruct (IH (S i) (fadd acc (fmul (nth i (hsrc_vec rows c) fzero) (nth i (nth p (hm_vecs m) []) fzero)))) as (s & E & D); [lia|].
    exists s. split; [exact E|]. rewrite (skipn_cons (hsrc_vec rows c) fzero i), (skipn_cons (nth p (hm_vecs m) []) fzero i) by lia. exact D.
Qed.

Definition set_vecs (m : hmem) (vs : list (list f64)) : hmem := HMem (hm_p m) vs (hm_cache m) (hm_arrays m) (hm_next m) (hm_lr m).

Lemma hrun_apply rows c p g k : all_len dim rows -> hsrc_in rows c ->
  forall n i tmp m, hm_p m = of_rows dim rows -> (i + n <= length (nth p (hm_vecs m) []))%nat -> (length (nth p (hm_vecs m) []) <= dim)%nat -> length tmp = dim ->
  exists vec' tmp', hrun (h_apply p c g n (Z.of_nat i) tmp) k m = Ret (k, set_vecs m (upd (hm_vecs m) p vec'), tmp') /\
    length vec' = length (nth p (hm_vecs m) []) /\ length tmp' = dim /\
    (forall j, nth j vec' fzero = if inr i n j then fadd (nth j (nth p (hm_vecs m) []) fzero) (fmul g (nth j (hsrc_vec rows c) fzero)) else nth j (nth p (hm_vecs m) []) fzero) /\
    (forall j, nth j tmp' fzero = if inr i n j then fadd (nth j tmp fzero) (fmul g (nth j (nth p (hm_vecs m) []) fzero)) else nth j tmp fzero).
Proof.
  intros HA Hc. induction n as [|n IH]; intros i tmp m EM Hi HL Ht.
  - exists (nth p (hm_vecs m) []), tmp. assert (E : forall j, inr i 0 j = false).
    { intros j. unfold inr. apply andb_false_iff. destruct (Nat.ltb_spec j (i + 0)); [left; apply Nat.leb_gt; lia|auto]. }
    split; [rewrite upd_nth; destruct m; reflexivity|]. split; [auto|]. split; [auto|]. split; intros; rewrite E; reflexivity.
  - assert (Hp : (p < length (hm_vecs m))%nat).
    { destruct (Nat.ltb_spec p (length (hm_vecs m))); auto. rewrite nth_overflow in Hi by lia. cbn in Hi. lia. }
    cbn [h_apply RaceHS.hrun]. rewrite a_vec_at by lia. cbn [obind].
    rewrite zindex_nat. rewrite (nth_error_nth' _ fzero) by lia. cbn [RaceHS.hrun]. rewrite a_vec_at by lia. cbn [obind].
    rewrite hrun_bind, (hrun_src rows) by (auto; lia). cbn [obind RaceHS.hrun]. unfold a_set_vec. rewrite zindex_nat, (nth_error_nth' _ fzero) by lia. cbn [obind].
    rewrite !Nat2Z.id. replace (Z.of_nat i + 1) with (Z.of_nat (S i)) by lia.
    set (vec := nth p (hm_vecs m) []) in *. set (x := fadd (nth i vec fzero) (fmul g (nth i (hsrc_vec rows c) fzero))).
    set (m1 := HMem (hm_p m) (upd (hm_vecs m) p (upd vec i x)) (hm_cache m) (hm_arrays m) (hm_next m) (hm_lr m)).
    assert (E1 : nth p (hm_vecs m1) [] = upd vec i x) by (cbn; apply nth_upd_same; exact Hp).
    destruct (IH (S i) (upd tmp i (fadd (nth i tmp fzero) (fmul g (nth i vec fzero)))) m1 EM) as (vec' & tmp' & E & L1 & L2 & HV & HT);
      [rewrite E1, upd_length; lia|rewrite E1, upd_length; lia|rewrite upd_length; auto|].
    rewrite E1 in L1, HV, HT. exists vec', tmp'. split; [rewrite E; cbn [hm_vecs m1]; rewrite upd_upd; reflexivity|]. split; [rewrite L1; apply upd_length|]. split; [exact L2|].
    assert (NI : inr (S i) n i = false) by (unfold inr; apply andb_false_iff; left; apply Nat.leb_gt; lia).
    split; intros j.
    + rewrite HV, inr_S. destruct (Nat.eqb_spec j i) as [->|Hj]; cbn [orb].
      * rewrite NI. apply nth_upd_same. lia.
      * rewrite !nth_upd_other by auto. reflexivity.
    + rewrite HT, inr_S. destruct (Nat.eqb_spec j i) as [->|Hj]; cbn [orb].
      * rewrite NI. apply nth_upd_same. lia.
      * rewrite !nth_upd_other by auto. reflexivity.
Qed.

Lemma vecs_of h m P nx lr p : holds h P nx lr m -> nth p (hm_vecs m) [] = hn_vec (hget h p).
Proof. intros (_ & _ & _ & E & _). rewrite E. change (@nil f64) with (hn_vec node0). rewrite map_nth. reflexivity. Qed.

Lemma hs_loop_cons lr ctx p q rest h tmp : hs_loop sig lr ctx (p :: q :: rest) h tmp =
      obind (vdot fzero ctx (hn_vec (hget h p))) (fun inner =>
      if fle inner (fopp max_exp) || fge inner max_exp then Ret (h, tmp)
      else
        obind (sig inner) (fun s =>
        let g := fmul (fsub (fsub (f_of_Z 1) (f_of_Z (Z.of_nat (hn_code (hget h q))))) s) lr in
        obind (vacc (fun t v => fadd t (fmul g v)) tmp (hn_vec (hget h p))) (fun tmp' =>
        obind (vacc (fun v c => fadd v (fmul g c)) (hn_vec (hget h p)) (firstn (length (hn_vec (hget h p))) ctx)) (fun vec' =>
        hs_loop sig lr ctx (q :: rest) (set_vec h p vec') tmp')))).
Proof. reflexivity. Qed.

Definition optim_post (k : nat) (P : matrix) (nx : Z) (lr : f64) (r : heap * list f64) (k' : nat) (m' : hmem) (t : list f64) : Prop :=
  k' = k /\ t = snd r /\ length t = dim /\ grown dim tree (fst r) /\ holds (fst r) P nx lr m'.

Lemma sim_hs_loop rows c lr0 k nx lr hd path : all_len dim rows -> hsrc_in rows c ->
  forall n i tmp h m, (n = pred (length path) - i)%nat -> length tmp = dim -> grown dim tree h -> holds h (of_rows dim rows) nx lr m -> denotes (hm_arrays m) hd path ->
  sim (h_hs_loop tree sig lr0 c hd n i tmp) k m (hs_loop sig lr0 (hsrc_vec rows c) (skipn i path) h tmp) (optim_post k (of_rows dim rows) nx lr).
Proof.
  intros HA Hc. pose proof (hsrc_len rows c HA Hc) as LC. induction n as [|n IH]; intros i tmp h m Hn Ht HG HM HD.
  - assert (E : hs_loop sig lr0 (hsrc_vec rows c) (skipn i path) h tmp = Ret (h, tmp)).
    { pose proof (skipn_length i path) as SL. destruct (skipn i path) as [|a [|b l]]; [reflexivity|reflexivity|cbn [length] in SL; lia]. }
    rewrite E. apply sim_ret. unfold optim_post. auto.
  - assert (Hi : (S i < length path)%nat) by lia.
    rewrite (skipn_cons path 0%nat i), (skipn_cons path 0%nat (S i)) by lia. set (p := nth i path 0%nat). set (q := nth (S i) path 0%nat).
    destruct HD as (D1 & D2 & D3 & D4 & D5).
    assert (EL : forall j, (j < length path)%nat -> nth j (nth (s_arr hd) (hm_arrays m) []) None = Some (nth j path 0%nat)).
    { intros j Hj. pose proof (nth_elements (hm_arrays m) hd j) as NE. destruct (Nat.ltb_spec j (s_len hd)); [|lia]. rewrite <- NE, D4.
      rewrite (nth_indep _ None (Some 0%nat)) by (rewrite map_length; lia). rewrite map_nth. reflexivity. }
    cbn [h_hs_loop]. eapply sim_act; [reflexivity|]. eapply sim_act; [reflexivity|]. rewrite (EL i), (EL (S i)) by lia. fold p q.
    eapply sim_act; [reflexivity|]. eapply sim_act; [reflexivity|]. eapply sim_act; [reflexivity|]. rewrite hs_loop_cons. rewrite (vecs_of h m _ _ _ p HM).
    pose proof HG as (G1 & G2 & G3). pose proof HM as (M1 & M2 & M3 & M4 & M5).
    assert (EV : nth p (hm_vecs m) [] = hn_vec (hget h p)) by (eapply vecs_of; eauto).
    destruct (hrun_inner rows c p k m M1 HA Hc ltac:(rewrite EV; apply G3) (length (hn_vec (hget h p))) 0 fzero ltac:(rewrite EV; lia)) as (s & E1 & E2).
    cbn [skipn] in E2. rewrite EV in E2. rewrite E2. cbn [obind].
    eapply sim_run; [exact E1|].
    destruct (fle s (fopp max_exp) || fge s max_exp).
    { apply sim_ret. unfold optim_post. cbn. auto. }
    destruct (sig s) as [y|e|] eqn:ES; cbn [obind].
    2-3: reflexivity.
    eapply sim_act; [reflexivity|]. cbv zeta.
    destruct (G2 q) as (_ & Gq). rewrite Gq. set (g := fmul (fsub (fsub (f_of_Z 1) (f_of_Z (Z.of_nat (hn_code (hget tree q))))) y) lr0).
    destruct (hrun_apply rows c p g k HA Hc (length (hn_vec (hget h p))) 0 tmp m M1 ltac:(rewrite EV; lia) ltac:(rewrite EV; apply G3) Ht) as (vec' & tmp' & E3 & L1 & L2 & V1 & V2).
    rewrite EV in L1, V1, V2. set (vec := hn_vec (hget h p)) in *. specialize (G3 p). fold vec in G3.
    destruct (vacc_nth (fun t v => fadd t (fmul g v)) vec tmp ltac:(lia)) as (t1 & F1 & F2 & F3). rewrite F1. cbn [obind].
    destruct (vacc_nth (fun v c => fadd v (fmul g c)) (firstn (length vec) (hsrc_vec rows c)) vec ltac:(rewrite firstn_length; lia)) as (v1 & K1 & K2 & K3). rewrite K1. cbn [obind].
    assert (IN : forall j, inr 0 (length vec) j = (j <? length vec)%nat) by (intros j; unfold inr; reflexivity).
    assert (ET : tmp' = t1).
    { apply (nth_ext _ _ fzero fzero); [lia|]. intros j Hj. rewrite V2, F3, IN. reflexivity. }
    assert (EVV : vec' = v1).
    { apply (nth_ext _ _ fzero fzero); [lia|]. intros j Hj. rewrite V1, K3, IN. rewrite firstn_length. replace (Nat.min (length vec) (length (hsrc_vec rows c))) with (length vec) by lia.
      destruct (Nat.ltb_spec j (length vec)); [|reflexivity]. rewrite nth_firstn. destruct (Nat.ltb_spec j (length vec)); [reflexivity|lia]. }
    subst t1 v1. eapply sim_run; [exact E3|].
    assert (HG' : forall j, hn_parent (hget (set_vec h p vec') j) = hn_parent (hget h j) /\ hn_code (hget (set_vec h p vec') j) = hn_code (hget h j) /\ hn_cache (hget (set_vec h p vec') j) = hn_cache (hget h j) /\
        length (hn_vec (hget (set_vec h p vec') j)) = length (hn_vec (hget h j))).
    { intros j. unfold set_vec. cbv zeta. rewrite hget_upd. destruct (Nat.eqb_spec j p) as [->|]; cbn [andb]; [|auto]. destruct (Nat.ltb_spec p (length h)); cbn; auto. }
    assert (EQ : skipn (S i) path = q :: skipn (S (S i)) path) by (rewrite (skipn_cons path 0%nat (S i)) by lia; reflexivity).
    rewrite <- EQ. apply IH; [lia|exact L2| | |].
    + destruct HG as (_ & _ & G3'). split; [unfold set_vec; rewrite upd_length; exact G1|]. split; [intros j; destruct (HG' j) as (-> & -> & _); apply G2|].
      intros j. destruct (HG' j) as (_ & _ & _ & ->). apply G3'.
    + split; [exact M1|]. split; [exact M2|]. split; [exact M3|]. split.
      * cbn [set_vecs hm_vecs]. unfold set_vec. rewrite map_upd, M4. reflexivity.
      * destruct M5 as (C1 & C2). split; [cbn; unfold set_vec; rewrite upd_length; exact C1|]. intros j. destruct (HG' j) as (_ & _ & -> & _). apply C2.
    + split; [exact D1|]. auto.
Qed.

Lemma sim_optim rows c set d lr0 id tmp h k nx lr m : all_len dim rows -> hsrc_in rows c -> Forall (fun n => (n < length tree)%nat) set ->
  length tmp = dim -> grown dim tree h -> holds h (of_rows dim rows) nx lr m ->
  sim (h_optim tree sig set d lr0 c id tmp) k m (hs_optim sig d lr0 (hsrc_vec rows c) id h set tmp) (optim_post k (of_rows dim rows) nx lr).
Proof.
  intros HA Hc HS Ht HG HM. unfold h_optim, hs_optim. destruct (zindex set id) as [n|] eqn:En; [|reflexivity].
  assert (Hn : (n < length h)%nat).
  { destruct HG as (-> & _). rewrite Forall_forall in HS. apply HS. unfold zindex in En. destruct (id <? 0); [discriminate En|]. eapply nth_error_In; eauto. }
  pose proof (sim_getpath h n d (of_rows dim rows) nx lr k m HG Hn HM) as HP. destruct (get_path h n d) as [h' o].
  assert (E : obind o (fun path => hs_loop sig lr0 (hsrc_vec rows c) path h' tmp) =
              obind (obind o (fun path => Ret (h', path))) (fun r => hs_loop sig lr0 (hsrc_vec rows c) (snd r) (fst r) tmp)) by (destruct o; reflexivity).
  rewrite E. eapply sim_bind; [exact HP|]. intros [h1 path] k' m' hd _ (-> & G' & L' & M' & D'). cbn [fst snd].
  change path with (skipn 0 path) at 1. apply sim_hs_loop; auto. destruct D' as (_ & _ & _ & _ & D5). lia.
Qed.

(** ** trainOne *)
Definition set_p (m : hmem) (P : matrix) : hmem := HMem P (hm_vecs m) (hm_cache m) (hm_arrays m) (hm_next m) (hm_lr m).

Lemma hrun_add_row r tmp k : length tmp = dim -> forall n i rows m, (i + n <= dim)%nat -> hm_p m = of_rows dim rows -> all_len dim rows -> (r < length rows)%nat ->
  exists rows', hrun (h_add_row (Z.of_nat r) n (Z.of_nat i) tmp) k m = Ret (k, set_p m (of_rows dim rows'), tt) /\
    all_len dim rows' /\ length rows' = length rows /\
    (forall q j, at2 rows' q j = if (q =? r)%nat && inr i n j then fadd (at2 rows r j) (nth j tmp fzero) else at2 rows q j).
Proof.
  intros Ht. induction n as [|n IH]; intros i rows m Hi EM HA Hr.
  - exists rows. split; [unfold set_p; rewrite <- EM; destruct m; reflexivity|]. split; [auto|]. split; [auto|]. intros q j.
    replace (inr i 0 j) with false; [now rewrite Bool.andb_false_r|]. unfold inr. symmetry. apply andb_false_iff.
    destruct (Nat.ltb_spec j (i + 0)); [left; apply Nat.leb_gt; lia|auto].
  - cbn [h_add_row RaceHS.hrun]. unfold a_param, get_or_panic. rewrite EM. rewrite cell_at by (auto; lia). cbn [obind].
    rewrite zindex_nat. rewrite (nth_error_nth' _ fzero) by lia. cbn [RaceHS.hrun]. unfold a_set_param. rewrite EM.
    rewrite set_cell_at by (auto; lia). cbn [obind]. replace (Z.of_nat i + 1) with (Z.of_nat (S i)) by lia.
    set (x := fadd (at2 rows r i) (nth i tmp fzero)).
    destruct (put_ok dim rows r i x HA) as (A1 & L1).
    destruct (IH (S i) (put rows r i x) (set_p m (of_rows dim (put rows r i x)))) as (rows' & E & A2 & L2 & HQ); [lia|reflexivity|auto|lia|].
    exists rows'. split; [exact E|]. split; [exact A2|]. split; [lia|].
    intros q j. rewrite HQ, !(put_at dim) by (auto; lia). rewrite inr_S. rewrite Nat.eqb_refl. cbn [andb].
    assert (NI : forall j, j = i -> inr (S i) n j = false) by (intros ? ->; unfold inr; apply andb_false_iff; left; apply Nat.leb_gt; lia).
    destruct (Nat.eqb_spec q r) as [->|]; cbn [andb]; auto. destruct (Nat.eqb_spec j i) as [->|]; cbn [orb andb]; auto.
    rewrite NI by reflexivity. reflexivity.
Qed.

Lemma hrun_add_row_all r tmp k rows m : length tmp = dim -> hm_p m = of_rows dim rows -> all_len dim rows -> (r < length rows)%nat ->
  hrun (h_add_row (Z.of_nat r) dim 0 tmp) k m = Ret (k, set_p m (of_rows dim (upd rows r (vplus (nth r rows []) tmp))), tt).
Proof.
  intros Ht EM HA Hr. pose proof (all_len_nth _ _ _ HA Hr) as Lr. change 0 with (Z.of_nat 0).
  destruct (hrun_add_row r tmp k Ht dim 0 rows m ltac:(lia) EM HA Hr) as (rows' & E & A' & L' & HQ). rewrite E.
  enough (EQ : rows' = upd rows r (vplus (nth r rows []) tmp)) by (rewrite EQ; reflexivity). apply (rows_ext dim); auto.
  - apply all_len_upd; auto. unfold vplus. rewrite zipw_length; lia.
  - now rewrite upd_length.
  - intros q j Hq Hj. rewrite HQ. unfold at2 at 3. rewrite nth_upd. rewrite Nat.eqb_sym. destruct (Nat.eqb_spec r q) as [<-|]; cbn [andb]; [|reflexivity].
    destruct (Nat.ltb_spec r (length rows)); [|lia]. rewrite (RaceSeq.inr0 sig rand dim j ltac:(lia)).
    unfold vplus. rewrite nth_zipw by lia. reflexivity.
Qed.

Lemma hrun_collect r k rows m : hm_p m = of_rows dim rows -> all_len dim rows -> (r < length rows)%nat -> forall n i agg, (i + n <= dim)%nat -> length agg = dim ->
  exists agg', hrun (h_collect (Z.of_nat r) n (Z.of_nat i) agg) k m = Ret (k, m, agg') /\
    length agg' = dim /\ (forall j, nth j agg' fzero = if inr i n j then fadd (nth j agg fzero) (at2 rows r j) else nth j agg fzero).
Proof.
  intros EM HA Hr. induction n as [|n IH]; intros i agg Hi Ha.
  - exists agg. split; [reflexivity|]. split; [auto|]. intros j.
    replace (inr i 0 j) with false; [reflexivity|]. unfold inr. symmetry. apply andb_false_iff.
    destruct (Nat.ltb_spec j (i + 0)); [left; apply Nat.leb_gt; lia|auto].
  - cbn [h_collect]. rewrite zindex_nat. rewrite (nth_error_nth' _ fzero) by lia. cbn [RaceHS.hrun]. unfold a_param, get_or_panic. rewrite EM. rewrite cell_at by (auto; lia). cbn [obind].
    rewrite Nat2Z.id. replace (Z.of_nat i + 1) with (Z.of_nat (S i)) by lia.
    destruct (IH (S i) (upd agg i (fadd (nth i agg fzero) (at2 rows r i)))) as (agg' & E & L & HQ); [lia|rewrite upd_length; auto|].
    exists agg'. split; [exact E|]. split; [exact L|]. intros j. rewrite HQ, inr_S.
    assert (NI : inr (S i) n i = false) by (unfold inr; apply andb_false_iff; left; apply Nat.leb_gt; lia).
    destruct (Nat.eqb_spec j i) as [->|Hj]; cbn [orb].
    + rewrite NI. apply nth_upd_same. lia.
    + rewrite !nth_upd_other by auto. reflexivity.
Qed.

Lemma hrun_collect_all r k rows m agg : hm_p m = of_rows dim rows -> all_len dim rows -> (r < length rows)%nat -> length agg = dim ->
  hrun (h_collect (Z.of_nat r) dim 0 agg) k m = Ret (k, m, vplus agg (nth r rows [])).
Proof.
  intros EM HA Hr Ha. pose proof (all_len_nth _ _ _ HA Hr) as Lr. change 0 with (Z.of_nat 0).
  destruct (hrun_collect r k rows m EM HA Hr dim 0 agg ltac:(lia) Ha) as (agg' & E & L & HQ). rewrite E. do 2 f_equal.
  apply (nth_ext _ _ fzero fzero); [unfold vplus; rewrite zipw_length; lia|]. intros j Hj. rewrite HQ. rewrite (RaceSeq.inr0 sig rand dim j ltac:(lia)).
  unfold vplus. rewrite nth_zipw by lia. reflexivity.
Qed.

Definition set_next (m : hmem) (z : Z) : hmem := HMem (hm_p m) (hm_vecs m) (hm_cache m) (hm_arrays m) z (hm_lr m).
Lemma hrun_next v k m : hrun (h_next_random v) k m = let '(n', o) := next_random (hm_next m) v in obind o (fun r => Ret (k, set_next m n', r)).
Proof. unfold h_next_random, next_random. cbn -[W64 Z.modulo]. destruct (v mod W64 =? 0); reflexivity. Qed.

Lemma sim_windowed {St T} (body : Z -> St -> hprog St) (body' : Z -> T -> outcome T) (proj : T -> St) (Rel : T -> hmem -> Prop) k len pos window :
  (forall c t m, 0 <= c < len -> Rel t m -> sim (body c (proj t)) k m (body' c t) (fun t' k' m' s => k' = k /\ s = proj t' /\ Rel t' m')) ->
  forall del t m, Rel t m ->
  sim (h_windowed body len pos window del (proj t)) k m (windowed body' len pos window del t) (fun t' k' m' s => k' = k /\ s = proj t' /\ Rel t' m').
Proof.
  intros HB. unfold h_windowed, windowed. intros del.
  enough (K : forall n a t m, Rel t m -> sim (h_win_loop body len pos window n a (proj t)) k m (win_loop body' len pos window n a t) (fun t' k' m' s => k' = k /\ s = proj t' /\ Rel t' m')) by (intros; apply K; auto).
  induction n as [|n IH]; intros a t m Ht; [apply sim_ret; auto|].
  cbn [h_win_loop win_loop].
  destruct (a =? window); [eapply sim_run; [reflexivity|]; apply IH; exact Ht|]. cbn zeta.
  destruct ((pos - window + a <? 0) || (pos - window + a >=? len)) eqn:EC; [eapply sim_run; [reflexivity|]; apply IH; exact Ht|].
  apply Bool.orb_false_iff in EC as (C1 & C2). apply Z.ltb_ge in C1. rewrite Z.geb_leb in C2. apply Z.leb_gt in C2.
  eapply sim_bind; [apply HB; auto; lia|]. intros t1 k' m' s _ (-> & -> & HR). apply IH; auto.
Qed.

Variables (V : nat) (window d : Z) (set : list nat).
Hypothesis Hset : Forall (fun n => (n < length tree)%nat) set.

Definition rel (lr : f64) (st : wstate) (m : hmem) : Prop :=
  exists h rows, s_opt st = HS h set d /\ s_param st = of_rows dim rows /\ all_len dim rows /\ length rows = V /\ grown dim tree h /\
    holds h (s_param st) (s_next st) lr m /\ length (s_agg st) = dim /\ length (s_tmp st) = dim.

Lemma holds_set_p h P P' nx lr m : holds h P nx lr m -> holds h P' nx lr (set_p m P').
Proof. intros (A & B & C & D & E). repeat split; auto; apply E. Qed.
Lemma holds_set_next h P nx nx' lr m : holds h P nx lr m -> holds h P nx' lr (set_next m nx').
Proof. intros (A & B & C & D & E). repeat split; auto; apply E. Qed.

Lemma sim_sg_body doc pos lr0 lr k c st m : Forall (fun id => (id < V)%nat) doc -> 0 <= pos < Z.of_nat (length doc) -> 0 <= c < Z.of_nat (length doc) -> rel lr st m ->
  sim (h_sg_body tree sig set d lr0 dim (map Z.of_nat doc) pos c (s_tmp st)) k m (sg_body sig (map Z.of_nat doc) pos lr0 c st)
    (fun st' k' m' s => k' = k /\ s = s_tmp st' /\ rel lr st' m').
Proof.
  intros HD Hp Hc (h & rows & EO & EP & HA & HL & HG & HM & Hag & Htm).
  destruct (RaceSeq.doc_at sig rand V doc c HD Hc) as (u & Eu & Hu). destruct (RaceSeq.doc_at sig rand V doc pos HD Hp) as (w & Ew & Hw).
  unfold h_sg_body, sg_body. rewrite Eu, Ew, EP, EO. rewrite EP in HM. rewrite of_rows_slice by (auto; lia). cbn [obind].
  eapply sim_act; [unfold a_slice, get_or_panic; destruct HM as (-> & _); rewrite of_rows_slice by (auto; lia); reflexivity|].
  fold (vzero (s_tmp st)). pose proof (all_len_nth _ _ u HA ltac:(lia)) as Lu.
  pose proof (sim_optim rows (HShared (Z.of_nat u)) set d lr0 (Z.of_nat w) (vzero (s_tmp st)) h k (s_next st) lr m HA ltac:(cbn; lia) Hset
    ltac:(rewrite vzero_length; auto) HG HM) as SO. cbn [hsrc_vec] in SO. rewrite Nat2Z.id in SO.
  unfold optim. rewrite RaceSeq.obind_assoc. eapply sim_bind; [exact SO|]. intros [h' t'] k' m' t _ (-> & -> & Lt & G' & M'). cbn [fst snd obind] in *.
  rewrite vadd_into_plus by lia. cbn [obind]. eapply sim_run; [apply hrun_add_row_all with (rows := rows); auto; [apply M'|lia]|].
  rewrite of_rows_store by (auto; try lia; unfold vplus; rewrite zipw_length; lia).
  apply sim_ret. split; [reflexivity|]. split; [reflexivity|]. eexists h', _. cbn [s_opt s_param s_next s_agg s_tmp]. split; [reflexivity|]. split; [reflexivity|].
  split; [apply all_len_upd; auto; unfold vplus; rewrite zipw_length; lia|]. split; [rewrite upd_length; auto|]. split; [exact G'|]. split; [eapply holds_set_p; exact M'|]. auto.
Qed.

Lemma sim_sg doc pos lr0 lr k st m : Forall (fun id => (id < V)%nat) doc -> 0 <= pos < Z.of_nat (length doc) -> rel lr st m ->
  sim (h_sg_train_one tree sig set d lr0 dim window (map Z.of_nat doc) (s_tmp st) pos) k m (sg_train_one sig window (map Z.of_nat doc) pos lr0 st)
    (fun st' k' m' _ => k' = k /\ rel lr st' m').
Proof.
  intros HD Hp HR. unfold h_sg_train_one, sg_train_one. pose proof (hrun_next window k m) as HN.
  pose proof HR as (h & rows & EO & EP & HA & HL & HG & HM & Hag & Htm). pose proof HM as (_ & EN & _). rewrite EN in HN.
  destruct (next_random (s_next st) window) as [nx' o]. destruct o as [del|e|]; cbn [obind] in HN |- *.
  2-3: unfold sim; rewrite hrun_bind, HN; reflexivity.
  eapply sim_run; [exact HN|]. set (st1 := WState nx' (s_param st) (s_opt st) (s_agg st) (s_tmp st)).
  assert (R1 : rel lr st1 (set_next m nx')).
  { exists h, rows. cbn. split; [exact EO|]. split; [exact EP|]. split; [exact HA|]. split; [exact HL|]. split; [exact HG|]. split; [eapply holds_set_next; exact HM|]. auto. }
  rewrite map_length.
  pose proof (sim_windowed (h_sg_body tree sig set d lr0 dim (map Z.of_nat doc) pos) (sg_body sig (map Z.of_nat doc) pos lr0) s_tmp (rel lr) k (Z.of_nat (length doc)) pos window
    ltac:(intros c t mm Hc Ht; apply sim_sg_body; auto) del st1 _ R1) as SW. change (s_tmp st1) with (s_tmp st) in SW.
  rewrite <- (bind_ret (windowed _ _ _ _ _ _)). eapply sim_bind; [exact SW|]. intros t k' m' s _ (-> & -> & HR'). apply sim_ret. auto.
Qed.

Lemma sim_aggregate doc lr k c st m t0 : Forall (fun id => (id < V)%nat) doc -> 0 <= c < Z.of_nat (length doc) -> rel lr st m /\ s_tmp st = t0 ->
  sim (h_cb_aggregate dim (map Z.of_nat doc) c (s_agg st)) k m (cb_aggregate (map Z.of_nat doc) c st)
    (fun st' k' m' s => k' = k /\ s = s_agg st' /\ rel lr st' m' /\ s_tmp st' = t0).
Proof.
  intros HD Hc ((h & rows & EO & EP & HA & HL & HG & HM & Hag & Htm) & HT). destruct (RaceSeq.doc_at sig rand V doc c HD Hc) as (u & Eu & Hu).
  unfold h_cb_aggregate, cb_aggregate. rewrite Eu, EP. rewrite of_rows_slice by (auto; lia). cbn [obind].
  eapply sim_act; [unfold a_slice, get_or_panic; destruct HM as (-> & _); rewrite EP; rewrite of_rows_slice by (auto; lia); reflexivity|].
  pose proof (all_len_nth _ _ u HA ltac:(lia)) as Lu. rewrite vacc_zip by lia. cbn [obind].
  unfold sim. rewrite (hrun_collect_all u k rows m (s_agg st)) by (auto; try lia; rewrite <- EP; apply HM).
  eexists _, _, _. split; [reflexivity|]. split; [reflexivity|]. split; [reflexivity|]. split; [|exact HT].
  exists h, rows. cbn [s_opt s_param s_next s_agg s_tmp]. split; [exact EO|]. split; [reflexivity|]. split; [exact HA|]. split; [exact HL|]. split; [exact HG|]. rewrite <- EP. split; [exact HM|].
  split; [unfold vplus; rewrite zipw_length; lia|exact Htm].
Qed.

Lemma sim_update doc lr k c st m : Forall (fun id => (id < V)%nat) doc -> 0 <= c < Z.of_nat (length doc) -> rel lr st m ->
  sim (h_cb_update dim (map Z.of_nat doc) c (s_tmp st)) k m (cb_update (map Z.of_nat doc) c st)
    (fun st' k' m' s => k' = k /\ s = s_tmp st' /\ rel lr st' m').
Proof.
  intros HD Hc (h & rows & EO & EP & HA & HL & HG & HM & Hag & Htm). destruct (RaceSeq.doc_at sig rand V doc c HD Hc) as (u & Eu & Hu).
  unfold h_cb_update, cb_update. rewrite Eu, EP. rewrite of_rows_slice by (auto; lia). cbn [obind].
  eapply sim_act; [unfold a_slice, get_or_panic; destruct HM as (-> & _); rewrite EP; rewrite of_rows_slice by (auto; lia); reflexivity|].
  pose proof (all_len_nth _ _ u HA ltac:(lia)) as Lu. rewrite vadd_into_plus by lia. cbn [obind].
  eapply sim_run; [apply hrun_add_row_all with (rows := rows); auto; [rewrite <- EP; apply HM|lia]|].
  rewrite of_rows_store by (auto; try lia; unfold vplus; rewrite zipw_length; lia).
  apply sim_ret. split; [reflexivity|]. split; [reflexivity|]. exists h, (upd rows u (vplus (nth u rows []) (s_tmp st))). cbn [s_opt s_param s_next s_agg s_tmp]. split; [exact EO|]. split; [reflexivity|].
  split; [apply all_len_upd; auto; unfold vplus; rewrite zipw_length; lia|]. split; [rewrite upd_length; auto|]. split; [exact HG|]. split; [eapply holds_set_p; exact HM|]. auto.
Qed.

(** dowith, for related states; [extra] is an additional invariant. *)
Lemma sim_dowith doc pos lr k st m fn fn' proj (extra : wstate -> Prop) : 0 <= pos < Z.of_nat (length doc) -> rel lr st m -> extra st ->
  (forall nx, extra (WState nx (s_param st) (s_opt st) (s_agg st) (s_tmp st))) ->
  (forall nx, proj (WState nx (s_param st) (s_opt st) (s_agg st) (s_tmp st)) = proj st) ->
  (forall c t mm, 0 <= c < Z.of_nat (length doc) -> rel lr t mm /\ extra t -> sim (fn c (proj t)) k mm (fn' c t) (fun t' k' m' s => k' = k /\ s = proj t' /\ rel lr t' m' /\ extra t')) ->
  sim (h_dowith window (map Z.of_nat doc) pos fn (proj st)) k m (cb_dowith window (map Z.of_nat doc) pos fn' st)
    (fun st' k' m' s => k' = k /\ s = proj st' /\ rel lr st' m' /\ extra st').
Proof.
  intros Hp HR HX HX2 HPj HB. unfold h_dowith, cb_dowith. pose proof (hrun_next window k m) as HN.
  pose proof HR as (h & rows & EO & EP & HA & HL & HG & HM & Hag & Htm). pose proof HM as (_ & EN & _). rewrite EN in HN.
  destruct (next_random (s_next st) window) as [nx' o]. destruct o as [del|e|]; cbn [obind] in HN |- *.
  2-3: unfold sim; rewrite hrun_bind, HN; reflexivity.
  eapply sim_run; [exact HN|]. set (st1 := WState nx' (s_param st) (s_opt st) (s_agg st) (s_tmp st)).
  assert (R1 : rel lr st1 (set_next m nx') /\ extra st1).
  { split; [|apply HX2]. exists h, rows. cbn. split; [exact EO|]. split; [exact EP|]. split; [exact HA|]. split; [exact HL|]. split; [exact HG|]. split; [eapply holds_set_next; exact HM|]. auto. }
  rewrite map_length. rewrite <- (HPj nx'). fold st1.
  apply (sim_windowed fn fn' proj (fun t mm => rel lr t mm /\ extra t) k (Z.of_nat (length doc)) pos window HB del st1 _ R1).
Qed.

Lemma sim_cb doc pos lr0 lr k st m : Forall (fun id => (id < V)%nat) doc -> 0 <= pos < Z.of_nat (length doc) -> rel lr st m ->
  sim (h_cb_train_one tree sig set d lr0 dim window (map Z.of_nat doc) (s_agg st) (s_tmp st) pos) k m (cb_train_one sig window (map Z.of_nat doc) pos lr0 st)
    (fun st' k' m' _ => k' = k /\ rel lr st' m').
Proof.
  intros HD Hp (h & rows & EO & EP & HA & HL & HG & HM & Hag & Htm). unfold h_cb_train_one, cb_train_one. cbn zeta.
  set (st0 := WState (s_next st) (s_param st) (s_opt st) (vzero (s_agg st)) (vzero (s_tmp st))).
  assert (R0 : rel lr st0 m).
  { exists h, rows. cbn. rewrite !vzero_length. auto 10. }
  fold (vzero (s_agg st)). fold (vzero (s_tmp st)).
  pose proof (sim_dowith doc pos lr k st0 m (h_cb_aggregate dim (map Z.of_nat doc)) (cb_aggregate (map Z.of_nat doc)) s_agg (fun s => s_tmp s = vzero (s_tmp st)) Hp R0 eq_refl
    (fun _ => eq_refl) (fun _ => eq_refl) ltac:(intros c t mm Hc Ht; apply sim_aggregate; auto)) as S1. change (s_agg st0) with (vzero (s_agg st)) in S1.
  eapply sim_bind; [exact S1|]. intros st1 k' m1 s _ (-> & -> & (h1 & rows1 & EO1 & EP1 & HA1 & HL1 & HG1 & HM1 & Hag1 & Htm1) & ET).
  destruct (RaceSeq.doc_at sig rand V doc pos HD Hp) as (w & Ew & Hw). rewrite Ew, EO1. unfold optim. rewrite RaceSeq.obind_assoc. rewrite ET. rewrite EP1 in HM1.
  eapply sim_bind; [exact (sim_optim rows1 (HOwn (s_agg st1)) set d lr0 (Z.of_nat w) (vzero (s_tmp st)) h1 k (s_next st1) lr m1 HA1 Hag1 Hset ltac:(rewrite vzero_length; auto) HG1 HM1)|].
  intros [h2 t2] k' m2 t _ (-> & -> & Lt & G2 & M2). cbn [fst snd obind] in *.
  set (st2 := WState (s_next st1) (s_param st1) (HS h2 set d) (s_agg st1) t2).
  assert (R2 : rel lr st2 m2).
  { exists h2, rows1. cbn. rewrite EP1. auto 10. }
  rewrite <- (bind_ret (cb_dowith _ _ _ _ _)).
  assert (HB : forall c t mm, 0 <= c < Z.of_nat (length doc) -> rel lr t mm /\ True ->
    sim (h_cb_update dim (map Z.of_nat doc) c (s_tmp t)) k mm (cb_update (map Z.of_nat doc) c t) (fun t' k' m' s => k' = k /\ s = s_tmp t' /\ rel lr t' m' /\ True)).
  { intros c t mm Hc (Ht & _). eapply sim_weaken; [exact (sim_update doc lr k c t mm HD Hc Ht)|]. intros t8 k8 m8 s8 _ (A1 & A2 & A3). auto. }
  pose proof (sim_dowith doc pos lr k st2 m2 (h_cb_update dim (map Z.of_nat doc)) (cb_update (map Z.of_nat doc)) s_tmp (fun _ => True) Hp R2 I
    (fun _ => I) (fun _ => eq_refl) HB) as S2. change (s_tmp st2) with t2 in S2.
  eapply sim_bind; [exact S2|]. intros st3 k' m3 s _ (-> & -> & R3 & _). apply sim_ret. auto.
Qed.

(** ** The goroutine *)
Definition vrel (v : wvals) (m : hmem) : Prop :=
  exists h rows, wv_o v = HS h set d /\ wv_m v = of_rows dim rows /\ all_len dim rows /\ length rows = V /\ grown dim tree h /\ holds h (wv_m v) (wv_next v) (wv_lr v) m.

Lemma sim_worker cbow samples doc : Forall (fun id => (id < V)%nat) doc -> (V <= length samples)%nat ->
  forall v m, vrel v m ->
  sim (h_worker tree sig cbow set d dim window samples (repeat fzero dim) (repeat fzero dim) doc) (wv_k v) m
    (one_pass (w2v_trial rand samples) (w2v_step sig (if cbow then Cbow else SkipGram) window (Z.of_nat dim)) doc 0 doc v)
    (fun v' k' m' _ => k' = wv_k v' /\ vrel v' m').
Proof.
  intros HD HS. unfold h_worker.
  assert (HW : forall pos v m, (pos < length doc)%nat -> vrel v m ->
    sim (HAct false (get hm_lr) (fun lr => if cbow then h_cb_train_one tree sig set d lr dim window (map Z.of_nat doc) (repeat fzero dim) (repeat fzero dim) (Z.of_nat pos)
       else h_sg_train_one tree sig set d lr dim window (map Z.of_nat doc) (repeat fzero dim) (Z.of_nat pos))) (wv_k v) m
      (w2v_step sig (if cbow then Cbow else SkipGram) window (Z.of_nat dim) doc pos v) (fun v' k' m' _ => k' = wv_k v' /\ vrel v' m')).
  { intros pos v1 m Hpos (h & rows & EO & EP & HA & HL & HG & HM). unfold w2v_step. rewrite Nat2Z.id.
    set (st := WState (wv_next v1) (wv_m v1) (wv_o v1) (repeat fzero dim) (repeat fzero dim)).
    assert (HR : rel (wv_lr v1) st m).
    { exists h, rows. cbn. rewrite !repeat_length. auto 10. }
    assert (Hp : 0 <= Z.of_nat pos < Z.of_nat (length doc)) by lia.
    eapply sim_act; [reflexivity|]. pose proof HM as (_ & _ & EL & _). rewrite EL.
    assert (FIN : forall st' m', rel (wv_lr v1) st' m' -> vrel (WVals (s_next st') (s_param st') (s_opt st') (wv_lr v1) (wv_k v1)) m').
    { intros st' m' (h' & rows' & A1 & A2 & A3 & A4 & A5 & A6 & _). exists h', rows'. cbn. auto 10. }
    destruct cbow.
    - pose proof (sim_cb doc (Z.of_nat pos) (wv_lr v1) (wv_lr v1) (wv_k v1) st m HD Hp HR) as SC. cbn [s_agg s_tmp st] in SC. fold st in SC.
      destruct (cb_train_one sig window (map Z.of_nat doc) (Z.of_nat pos) (wv_lr v1) st) as [s'|e|]; cbn [obind]; [|exact SC|exact SC].
      destruct SC as (k' & m' & r & E & -> & R'). exists (wv_k v1), m', r. split; [exact E|]. split; [reflexivity|]. apply FIN. exact R'.
    - pose proof (sim_sg doc (Z.of_nat pos) (wv_lr v1) (wv_lr v1) (wv_k v1) st m HD Hp HR) as SC. cbn [s_agg s_tmp st] in SC. fold st in SC.
      destruct (sg_train_one sig window (map Z.of_nat doc) (Z.of_nat pos) (wv_lr v1) st) as [s'|e|]; cbn [obind]; [|exact SC|exact SC].
      destruct SC as (k' & m' & r & E & -> & R'). exists (wv_k v1), m', r. split; [exact E|]. split; [reflexivity|]. apply FIN. exact R'. }
  enough (K : forall todo pos v m, (pos + length todo = length doc)%nat -> Forall (fun id => (id < V)%nat) todo -> vrel v m ->
    sim (h_visit samples (fun pos => HAct false (get hm_lr) (fun lr => if cbow then h_cb_train_one tree sig set d lr dim window (map Z.of_nat doc) (repeat fzero dim) (repeat fzero dim) pos
       else h_sg_train_one tree sig set d lr dim window (map Z.of_nat doc) (repeat fzero dim) pos)) (Z.of_nat pos) todo) (wv_k v) m
      (one_pass (w2v_trial rand samples) (w2v_step sig (if cbow then Cbow else SkipGram) window (Z.of_nat dim)) doc pos todo v) (fun v' k' m' _ => k' = wv_k v' /\ vrel v' m')).
  { intros v m Hv. apply (K doc 0%nat v m); auto. }
  induction todo as [|id todo IH]; intros pos v m HL HF Hv; [apply sim_ret; auto|].
  inversion HF as [|? ? Hid HF']; subst. cbn [length] in HL. cbn [h_visit one_pass].
  eapply sim_act; [reflexivity|]. unfold w2v_trial at 1. unfold trial. destruct (nth_error samples id) as [s|] eqn:E; [|apply nth_error_None in E; lia]. cbn [obind].
  set (v1 := WVals (wv_next v) (wv_m v) (wv_o v) (wv_lr v) (S (wv_k v))). assert (Hv1 : vrel v1 m) by exact Hv.
  replace (Z.of_nat pos + 1) with (Z.of_nat (S pos)) by lia. change (S (wv_k v)) with (wv_k v1).
  destruct (fgt s (rand (wv_k v))).
  - eapply sim_bind; [apply HW; [lia|exact Hv1]|]. intros v2 k' m' r _ (-> & Hv2). apply IH; auto. lia.
  - eapply sim_run; [reflexivity|]. apply IH; auto. lia.
Qed.
End Alone.

(** ** Freshly built nodes *)
Definition fresh_node (dim : nat) (nd : hnode) : Prop := hn_cache nd = None /\ (length (hn_vec nd) <= dim)%nat.
Lemma fresh_hget dim h n : Forall (fresh_node dim) h -> fresh_node dim (hget h n).
Proof.
  intros H. unfold hget. destruct (Nat.ltb_spec n (length h)) as [Hn|Hn]; [rewrite Forall_forall in H; apply H, nth_In, Hn|].
  rewrite nth_overflow by lia. split; [reflexivity|cbn; lia].
Qed.
Lemma Forall_upd {A} (P : A -> Prop) (l : list A) : forall i x, Forall P l -> P x -> Forall P (upd l i x).
Proof. induction l as [|a l IH]; intros [|i] x H Hx; cbn; inversion H; subst; constructor; auto. Qed.
Lemma fresh_link dim h x c m : Forall (fresh_node dim) h -> Forall (fresh_node dim) (link h x c m).
Proof. intros H. unfold link. cbv zeta. apply Forall_upd; [exact H|]. exact (fresh_hget dim h x H). Qed.
Lemma fresh_merge dim : forall fuel h nodes, Forall (fresh_node dim) h -> Forall (fresh_node dim) (fst (merge_loop fuel dim h nodes)).
Proof.
  induction fuel as [|fuel IH]; intros h nodes H; [exact H|]. cbn [merge_loop]. destruct nodes as [|l [|r rest]]; [exact H|exact H|].
  unfold merge_step. cbv zeta. apply IH. apply fresh_link, fresh_link. apply Forall_app. split; [exact H|]. constructor; [|constructor]. split; [reflexivity|cbn [hn_vec]; rewrite repeat_length; lia].
Qed.
Lemma fresh_tree d dim h set : huffman_tree d dim = Ret (h, set) -> Forall (fresh_node (Z.to_nat dim)) h.
Proof.
  unfold huffman_tree. destruct (id_freqs d (seq 0 (maxid d))) as [fs|e|]; cbn [obind]; try discriminate.
  destruct (_ && _)%bool; [discriminate|].
  match goal with |- (let '(_, _) := merge_loop ?a ?b ?c ?e in _) = _ -> _ => pose proof (fresh_merge b a c e) as HF; destruct (merge_loop a b c e) as [h' ns] end.
  intros E. injection E as <- _. apply HF. apply Forall_forall. intros nd Hnd. apply in_map_iff in Hnd. destruct Hnd as (x & <- & _). split; [reflexivity|cbn; lia].
Qed.
Lemma fresh_start dim tree P nx lr : Forall (fresh_node dim) tree -> grown dim tree tree /\ holds tree P nx lr (hs_mem nx lr P tree).
Proof.
  intros H. split; [split; [reflexivity|split; [auto|intros n; apply (fresh_hget dim tree n H)]]|].
  repeat (split; [reflexivity|]). split; [apply map_length|]. intros n. destruct (fresh_hget dim tree n H) as (-> & _). cbn [hm_cache hs_mem].
  destruct (Nat.ltb_spec n (length tree)); [|rewrite nth_overflow by (rewrite map_length; lia); exact I].
  assert (EN : nth n (map (fun _ : hnode => @None hdr) tree) None = None).
  { clear. revert n. induction tree as [|a t IH]; intros [|n]; cbn; auto. }
  rewrite EN. exact I.
Qed.
