From Coq Require Import Reals Lra Lia.
From Flocq Require Import Core BinarySingleNaN.
From Verif.Lib Require Import Go F64 F64Facts ListFacts Tac.
From Verif.Model Require Import Dictionary ModelUtil Matrix Huffman Sigmoid Window Word2vec.
From Verif.Spec Require Import Rows Training Tree Reach.
From Verif.Proofs Require Import ModelUtil Matrix Sigmoid Window Word2vec TrainOne Marked.
Local Open Scope Z_scope.

Lemma draw_radius' window next : 1 <= window < 2 ^ 63 -> exists del,
  next_random next window = (lcg next, Ret del) /\ 0 <= del < window /\ del = lcg next mod window.
Proof.
  intros Hw. destruct (draw_next next window Hw) as (E & Hd). eexists. split; [exact E|].
  unfold draw. cbn [Nat.iter].
  pose proof (Z.mod_pos_bound (lcg next) window ltac:(lia)). rewrite Z2Nat.id by lia. split; auto.
Qed.

Lemma skipgram_window sig window doc pos lr st : 1 <= window < 2 ^ 63 ->
  sg_train_one sig window doc pos lr st =
  ofold (sg_body sig doc pos lr) (context pos (window - lcg (s_next st) mod window) (length doc))
    (WState (lcg (s_next st)) (s_param st) (s_opt st) (s_agg st) (s_tmp st)).
Proof.
  intros Hw. unfold sg_train_one. destruct (draw_radius' window (s_next st) Hw) as (del & -> & Hd & Ed).
  cbn [obind]. rewrite windowed_context by lia. rewrite <- Ed. reflexivity.
Qed.

Lemma dowith_window window doc pos fn st : 1 <= window < 2 ^ 63 ->
  cb_dowith window doc pos fn st =
  ofold fn (context pos (window - lcg (s_next st) mod window) (length doc))
    (WState (lcg (s_next st)) (s_param st) (s_opt st) (s_agg st) (s_tmp st)).
Proof.
  intros Hw. unfold cb_dowith. destruct (draw_radius' window (s_next st) Hw) as (del & -> & Hd & Ed).
  cbn [obind]. rewrite windowed_context by lia. rewrite <- Ed. reflexivity.
Qed.

Lemma lcg_parity s : lcg s mod 2 = (s + 1) mod 2.
Proof.
  unfold lcg, W64. rewrite <- Znumtheory.Zmod_div_mod; [|lia|lia|exists (2 ^ 63); reflexivity].
  rewrite Z.add_mod, Z.mul_mod by lia. change (25214903917 mod 2) with 1. change (11 mod 2) with 1.
  rewrite (Z.add_mod s 1) by lia. change (1 mod 2) with 1.
  rewrite Z.mul_1_r, Z.mod_mod by lia. reflexivity.
Qed.

Lemma iter_parity k s : Nat.iter k lcg s mod 2 = (s + Z.of_nat k) mod 2.
Proof.
  induction k as [|k IH]; [simpl; f_equal; lia|].
  change (Nat.iter (S k) lcg s) with (lcg (Nat.iter k lcg s)).
  rewrite lcg_parity, Z.add_mod, IH by lia.
  rewrite <- Z.add_mod by lia. f_equal. lia.
Qed.

Lemma hs_next sig h set depth lr ctx id next tmp next' opt' tmp' :
  optim sig (HS h set depth) lr ctx id next tmp = Ret (next', opt', tmp') -> next' = next.
Proof.
  cbn [optim]. destruct (hs_optim _ _ _ _ _ _ _ _) as [[? ?]| |]; cbn [obind]; try discriminate. congruence.
Qed.

Lemma cbow_hs_differ sig h set depth lr ctx id next tmp next2 opt' tmp' :
  optim sig (HS h set depth) lr ctx id (lcg next) tmp = Ret (next2, opt', tmp') ->
  2 - lcg next mod 2 <> 2 - lcg next2 mod 2.
Proof.
  intros E. apply hs_next in E. subst next2. rewrite (lcg_parity (lcg next)).
  pose proof (Z.mod_pos_bound (lcg next) 2). 
  assert (H2 : (lcg next + 1) mod 2 = 1 - lcg next mod 2).
  { clear. set (x := lcg next). pose proof (Z.mod_pos_bound x 2 ltac:(lia)).
    assert (x mod 2 = 0 \/ x mod 2 = 1) as [E|E] by lia; rewrite E; rewrite Z.add_mod, E by lia; reflexivity. }
  rewrite H2. lia.
Qed.

Lemma ns_next sig rows dim k lr ctx id next tmp next' opt' tmp' :
  all_len dim rows -> (id < length rows)%nat -> Z.of_nat (length rows) < 2 ^ 63 ->
  length ctx = dim -> length tmp = dim ->
  optim sig (NS (of_rows dim rows) (Z.of_nat k)) lr ctx (Z.of_nat id) next tmp = Ret (next', opt', tmp') ->
  next' = Nat.iter k lcg next.
Proof.
  intros Hr Hid HV Hc Ht. cbn [optim].
  destruct (ns_optim _ _ _ _ _ _ _ _) as [[[? ?] ?]| |] eqn:E; cbn [obind]; try discriminate.
  intros E'. injection E' as <- <- <-.
  destruct (ns_optim_frame sig k lr ctx id next rows tmp dim _ _ _ Hr Hid HV Hc Ht E) as (_ & _ & H & _). exact H.
Qed.

Lemma cbow_ns_differ sig rows dim k lr ctx id next tmp next2 opt' tmp' :
  all_len dim rows -> (id < length rows)%nat -> Z.of_nat (length rows) < 2 ^ 63 ->
  length ctx = dim -> length tmp = dim ->
  optim sig (NS (of_rows dim rows) (Z.of_nat k)) lr ctx (Z.of_nat id) (lcg next) tmp = Ret (next2, opt', tmp') ->
  (2 - lcg next mod 2 <> 2 - lcg next2 mod 2 <-> Z.of_nat k mod 2 = 0).
Proof.
  intros Hr Hid HV Hc Ht E. apply (ns_next sig rows dim k lr ctx id _ _ _ _ _ Hr Hid HV Hc Ht) in E. subst next2.
  rewrite (lcg_parity (Nat.iter k lcg (lcg next))).
  rewrite Z.add_mod, iter_parity, <- Z.add_mod by lia.
  set (x := lcg next). lia.
Qed.

Lemma hs_reach_lemma sig calls dim h set depth :
  let d := fold_left dict_add calls dict_new in
  Z.of_nat (dict_len d) < 2 ^ 63 -> opt_reach sig d dim (HS h set depth) ->
  forall id lr ctx next tmp, (id < dict_len d)%nat -> length ctx = dim -> length tmp = dim ->
  exists p, root_path (fun y => hn_parent (hget h y)) p id /\
  let steps := path_steps (fun q => hn_code (hget h q)) (firstn (Z.to_nat depth) p) in
  match hs_steps_run sig lr ctx steps (fun x => hn_vec (hget h x)) tmp with
  | Ret (vecs', tmp') => exists h', optim sig (HS h set depth) lr ctx (Z.of_nat id) next tmp = Ret (next, HS h' set depth, tmp') /\
      (forall x, hn_vec (hget h' x) = vecs' x) /\
      (forall x, ~ In x (removelast (firstn (Z.to_nat depth) p)) -> hn_vec (hget h' x) = hn_vec (hget h x)) /\
      (forall x, hn_code (hget h' x) = hn_code (hget h x) /\ hn_parent (hget h' x) = hn_parent (hget h x))
  | Err e => optim sig (HS h set depth) lr ctx (Z.of_nat id) next tmp = Err e
  | Panic => optim sig (HS h set depth) lr ctx (Z.of_nat id) next tmp = Panic
  end.
Proof.
  intros d HV HR id lr ctx next tmp Hid Hc Ht.
  destruct (reach_ok sig calls dim _ HV HR) as (HI & -> & Hd).
  destruct (hs_path_exists _ dim h id HI) as (p & Hp); [destruct HI; unfold d in *; lia|].
  exists p. split; [exact Hp|]. cbv zeta. cbn [optim].
  pose proof (hs_optim_lemma sig _ dim depth lr ctx id h tmp p HI Hid Hd Hc Ht Hp) as HS. fold d in HS |- *.
  destruct (hs_steps_run _ _ _ _ _ _) as [[v' t']|e|] eqn:ER.
  - destruct HS as (h' & -> & _ & _ & _ & HX). cbn [obind]. exists h'. split; [reflexivity|].
    split; [intros; apply HX|]. split; [|intros x; split; apply HX].
    intros x Hx. rewrite (proj1 (HX x)). refine (hs_steps_frame sig _ _ _ _ _ _ _ ER x _). rewrite path_steps_fst. exact Hx.
  - rewrite HS. reflexivity.
  - rewrite HS. reflexivity.
Qed.

(** Leaves are never among the updated nodes: they are nobody's parent. *)
Lemma removelast_parent par p n k x : root_path par p n -> In x (removelast (firstn k p)) -> exists y, par y = Some x.
Proof.
  intros Hp Hin. rewrite <- (path_steps_fst (fun _ => 0%nat)) in Hin.
  assert (G : forall l, In x (map fst (path_steps (fun _ => 0%nat) l)) -> exists l1 b l2, l = l1 ++ x :: b :: l2).
  { induction l as [|a l IH]; [cbn; tauto|]. destruct l as [|b l]; [cbn; tauto|].
    change (path_steps (fun _ => 0%nat) (a :: b :: l)) with ((a, 0%nat) :: path_steps (fun _ => 0%nat) (b :: l)).
    cbn [map fst In]. intros [->|H]; [exists [], b, l; reflexivity|].
    destruct (IH H) as (l1 & b' & l2 & E). exists (a :: l1), b', l2. rewrite E. reflexivity. }
  destruct (G _ Hin) as (l1 & b & l2 & E). exists b. eapply root_path_firstn; eauto.
Qed.

Lemma cbow_reach_lemma sig calls dim window doc pos lr next rows opt agg tmp :
  let d := fold_left dict_add calls dict_new in let V := dict_len d in
  Z.of_nat V < 2 ^ 63 -> 1 <= window < 2 ^ 63 -> Forall (fun id => (id < V)%nat) doc -> (pos < length doc)%nat ->
  opt_reach sig d dim opt ->
  all_len dim rows -> length rows = V -> length agg = dim -> length tmp = dim ->
  let word c := nth (Z.to_nat c) doc 0%nat in
  let w1 := context (Z.of_nat pos) (window - lcg next mod window) (length doc) in
  let agg1 := fold_left (fun a c => vplus a (nth (word c) rows [])) w1 (repeat fzero dim) in
  cb_train_one sig window (map Z.of_nat doc) (Z.of_nat pos) lr (WState next (of_rows dim rows) opt agg tmp) =
  obind (optim sig opt lr agg1 (Z.of_nat (nth pos doc 0%nat)) (lcg next) (repeat fzero dim)) (fun '(next2, opt', tmp') =>
  let w2 := context (Z.of_nat pos) (window - lcg next2 mod window) (length doc) in
  Ret (WState (lcg next2)
        (of_rows dim (fold_left (fun rs c => upd rs (word c) (vplus (nth (word c) rs []) tmp')) w2 rows))
        opt' agg1 tmp')).
Proof.
  intros d V HV Hw Hdoc Hpos HR Hrows Hl Ha Ht.
  apply (cbow_lemma sig V dim window doc pos lr Hw Hdoc Hpos next rows opt agg tmp Hrows Hl Ha Ht).
  intros lr' ctx id n t n' o' t' Hc Ht' Hid E.
  exact (proj2 (optim_ok sig _ _ _ _ _ _ _ _ _ _ _ (reach_ok sig calls dim _ HV HR) HV Hid Hc Ht' E)).
Qed.

Definition just_below : f64 := f_of_ratio false (6 * 2 ^ 50 - 1) (2 ^ 50).
Definition marked (exp : f64 -> f64) (x : f64) : outcome f64 :=
  if isnan x || feq x just_below then Err "lookup"%string else sigmoid (sig_table exp) x.

Lemma just_below_spec x : feq x just_below = true <-> Sigmoid.just_below_6 x.
Proof.
  destruct (fshow_spec just_below (6 * 2 ^ 50 - 1) (-50)) as (F & E); [vm_compute; reflexivity|].
  assert (Er : f2r just_below = (6 - bpow radix2 (-50))%R).
  { rewrite E, minus_IZR, mult_IZR. change (2 ^ 50) with (Zpower radix2 50). rewrite IZR_Zpower by lia.
    rewrite Rmult_minus_distr_r, Rmult_assoc, <- bpow_plus. simpl (bpow radix2 (50 + -50)). ring. }
  rewrite feq_spec. unfold Sigmoid.just_below_6. split.
  - intros (A & B & C). rewrite (fkey_fin just_below F), Er in C.
    assert (is_fin x = true).
    { destruct x as [s|s| |s m e He]; [reflexivity| |discriminate A|reflexivity].
      exfalso. pose proof (f2r_bound just_below) as Hb. rewrite Er in Hb. pose proof F64MAX_pos.
      apply Rabs_lt_inv in Hb. destruct s; unfold fkey in C; lra. }
    split; auto. rewrite <- fkey_fin by auto. exact C.
  - intros (A & B). split; [apply fin_not_nan; auto|]. split; [apply fin_not_nan; auto|].
    rewrite !fkey_fin by auto. congruence.
Qed.

Lemma guarded x : fle x (f_of_Z (-6)) = false -> fge x (f_of_Z 6) = false -> isnan x = false ->
  fgt x (f_of_Z (-6)) = true /\ flt x (f_of_Z 6) = true.
Proof.
  intros H1 H2 Hn. assert (N1 : isnan (f_of_Z (-6)) = false) by reflexivity. assert (N2 : isnan (f_of_Z 6) = false) by reflexivity.
  rewrite fgt_spec, flt_spec. split; split; auto; split; auto.
  - apply Rnot_le_gt. intros C. rewrite (proj2 (fle_spec _ _)) in H1 by auto. discriminate.
  - apply Rnot_ge_lt. intros C. rewrite (proj2 (fge_spec _ _)) in H2 by auto. discriminate.
Qed.

Lemma marked_safe exp x : fle x (f_of_Z (-6)) = false -> fge x (f_of_Z 6) = false -> marked exp x <> Panic.
Proof.
  intros H1 H2. unfold marked. destruct (isnan x) eqn:N; [discriminate|]. destruct (feq x just_below) eqn:J; [discriminate|].
  cbn [orb]. destruct (guarded x H1 H2 N) as (G1 & G2).
  destruct (proj2 (Sigmoid.sigmoid_index_lemma exp x G1 G2)) as (v & -> & _); [|discriminate].
  rewrite <- just_below_spec. congruence.
Qed.

Lemma marked_follows exp x : fle x (fopp max_exp) = false -> fge x max_exp = false ->
  follows (sigmoid (sig_table exp) x) (marked exp x).
Proof.
  rewrite minus6. intros H1 H2. unfold marked. destruct (isnan x) eqn:N.
  - cbn [orb follows]. destruct x; try discriminate. apply (Sigmoid.sigmoid_nan_lemma exp).
  - cbn [orb]. destruct (guarded x H1 H2 N) as (G1 & G2). destruct (feq x just_below) eqn:J.
    + cbn [follows]. apply (Sigmoid.sigmoid_index_lemma exp x G1 G2). apply just_below_spec; auto.
    + destruct (proj2 (Sigmoid.sigmoid_index_lemma exp x G1 G2)) as (v & -> & _); [|reflexivity].
      rewrite <- just_below_spec. congruence.
Qed.

Lemma train_one_lemma exp calls dim window doc pos lr next rows opt agg tmp train :
  let sig := sigmoid (sig_table exp) in
  let d := fold_left dict_add calls dict_new in let V := dict_len d in
  Z.of_nat V < 2 ^ 63 -> 1 <= window < 2 ^ 63 -> Forall (fun id => 0 <= id < Z.of_nat V) doc ->
  0 <= pos < Z.of_nat (length doc) -> opt_reach sig d dim opt ->
  all_len dim rows -> length rows = V -> length agg = dim -> length tmp = dim ->
  train = sg_train_one \/ train = cb_train_one ->
  let st := WState next (of_rows dim rows) opt agg tmp in
  match train (marked exp) window doc pos lr st with
  | Panic => False
  | Err _ => train sig window doc pos lr st = Panic
  | Ret st' => train sig window doc pos lr st = Ret st' /\
      exists rows', s_param st' = of_rows dim rows' /\
      all_len dim rows' /\ length rows' = V /\ opt_reach sig d dim (s_opt st') /\
      length (s_agg st') = dim /\ length (s_tmp st') = dim /\
      forall r, (forall c, In c (context pos window (length doc)) -> nth (Z.to_nat c) doc 0 <> Z.of_nat r) ->
        nth r rows' [] = nth r rows []
  end.
Proof.
  intros sig d V HV Hw Hdoc Hpos HR Hrows Hl Ha Ht Htr st.
  assert (H0 : st_ok (marked exp) calls dim window doc pos rows st).
  { exists rows. cbn [s_param s_opt s_agg s_tmp st]. split; auto. split; auto. split; auto.
    split; [intros r _; reflexivity|]. split; auto.
    eapply reach_to; [|exact HR]. apply marked_follows. }
  assert (H1 : safe (st_ok (marked exp) calls dim window doc pos rows) (train (marked exp) window doc pos lr st)).
  { destruct Htr as [-> | ->].
    - apply (sg_train_ok (marked exp) calls dim window doc pos lr rows (marked_safe exp) HV Hw Hdoc Hpos _ H0).
    - apply (cb_train_ok (marked exp) calls dim window doc pos lr rows (marked_safe exp) HV Hw Hdoc Hpos _ H0). }
  assert (H2 : follows (train sig window doc pos lr st) (train (marked exp) window doc pos lr st)).
  { destruct Htr as [-> | ->]; [apply sg_follows|apply cb_follows]; apply marked_follows. }
  destruct (train (marked exp) window doc pos lr st) as [st'| |]; cbn [safe follows] in *; auto.
  split; [exact H2|]. destruct H1 as (rows' & Ep & A & B & C & D & F & G).
  exists rows'. split; auto. split; auto. split; auto. split; [eapply reach_from; [apply marked_follows|exact D]|]. auto.
Qed.
