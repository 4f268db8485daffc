From Verif.Lib Require Import Go F64 ListFacts Tac.
From Verif.Model Require Import Dictionary ModelUtil Matrix Huffman Window Word2vec.
From Verif.Spec Require Import Rows Training Tree Reach.
From Verif.Proofs Require Import ModelUtil Matrix Window Word2vec.
Local Open Scope Z_scope.

Section Sig.
Variable sig : f64 -> outcome f64.

Definition opt_ok (V dim : nat) (opt : optimizer) : Prop :=
  match opt with
  | NS m k => exists rows, m = of_rows dim rows /\ all_len dim rows /\ length rows = V
  | HS h set depth => hs_inv V dim h /\ set = seq 0 V /\ 0 <= depth
  end.

Lemma optim_ok V dim opt lr ctx id next tmp next' opt' tmp' :
  opt_ok V dim opt -> Z.of_nat V < 2 ^ 63 -> (id < V)%nat -> length ctx = dim -> length tmp = dim ->
  optim sig opt lr ctx (Z.of_nat id) next tmp = Ret (next', opt', tmp') ->
  opt_ok V dim opt' /\ length tmp' = dim.
Proof.
  intros Hok HV Hid Hc Ht E. destruct opt as [m k|h set depth]; cbn [optim] in E.
  - destruct Hok as (rows & -> & Hrows & Hl).
    destruct (Z_lt_le_dec k 0) as [Hk|Hk].
    + unfold ns_optim in E. destruct (Z.leb_spec k (-1)); [|lia]. cbn [obind] in E. injection E as <- <- <-.
      split; auto. exists rows; auto.
    + rewrite <- (Z2Nat.id k Hk) in E.
      destruct (ns_optim sig (Z.of_nat (Z.to_nat k)) lr ctx (Z.of_nat id) next (of_rows dim rows) tmp)
        as [[[n1 m1] t1]| |] eqn:En; cbn [obind] in E; try discriminate.
      injection E as <- <- <-.
      destruct (ns_optim_frame sig (Z.to_nat k) lr ctx id next rows tmp dim n1 m1 t1 Hrows ltac:(lia) ltac:(lia) Hc Ht En)
        as (rows' & -> & _ & A & B & C & _).
      split; auto. exists rows'. split; auto. split; auto. lia.
  - destruct Hok as (HI & -> & Hd).
    destruct (hs_path_exists V dim h id HI) as (p & Hp); [destruct HI; lia|].
    pose proof (hs_optim_lemma sig V dim depth lr ctx id h tmp p HI Hid Hd Hc Ht Hp) as HS.
    destruct (hs_steps_run _ _ _ _ _ _) as [[v' t']|e|].
    + destruct HS as (h' & E' & A & B & C & _). rewrite E' in E. cbn [obind] in E. injection E as <- <- <-.
      split; auto. split; auto.
    + rewrite HS in E. discriminate.
    + rewrite HS in E. discriminate.
Qed.

Hypothesis sig_safe : forall x, fle x (f_of_Z (-6)) = false -> fge x (f_of_Z 6) = false -> sig x <> Panic.

Lemma predict_safe x : predict sig x <> Panic.
Proof.
  unfold predict. destruct (fle _ _) eqn:E1; [discriminate|]. destruct (fge _ _) eqn:E2; [discriminate|]. auto.
Qed.

Lemma ofold_ns_safe lr ctx : forall steps st, ofold (ns_row_step sig lr ctx) steps st <> Panic.
Proof.
  induction steps as [|[r l] steps IH]; intros [rows tmp]; cbn [ofold]; [discriminate|].
  unfold ns_row_step at 1. pose proof (predict_safe (dot (nth r rows []) ctx)) as H.
  destruct (predict sig _); cbn [obind]; auto. discriminate.
Qed.

Lemma hs_run_safe lr ctx : forall steps vecs tmp, hs_steps_run sig lr ctx steps vecs tmp <> Panic.
Proof.
  induction steps as [|[p c] steps IH]; intros vecs tmp; cbn [hs_steps_run]; [discriminate|].
  destruct (_ || _) eqn:E; [discriminate|]. apply orb_false_iff in E. destruct E as (E1 & E2).
  pose proof (sig_safe _ E1 E2) as H. destruct (sig _); cbn [obind]; auto. discriminate.
Qed.

Lemma optim_safe V dim opt lr ctx id next tmp :
  opt_ok V dim opt -> Z.of_nat V < 2 ^ 63 -> (id < V)%nat -> length ctx = dim -> length tmp = dim ->
  optim sig opt lr ctx (Z.of_nat id) next tmp <> Panic.
Proof.
  intros Hok HV Hid Hc Ht. destruct opt as [m k|h set depth]; cbn [optim].
  - destruct Hok as (rows & -> & Hrows & Hl).
    destruct (Z_lt_le_dec k 0) as [Hk|Hk].
    + unfold ns_optim. destruct (Z.leb_spec k (-1)); [|lia]. discriminate.
    + rewrite <- (Z2Nat.id k Hk). rewrite ns_optim_lemma by (auto; lia).
      pose proof (ofold_ns_safe lr ctx (ns_steps id next (Z.of_nat (length rows)) (Z.to_nat k)) (rows, tmp)) as H.
      destruct (ofold _ _ _) as [[r' t']| |]; cbn [obind]; try discriminate. auto.
  - destruct Hok as (HI & -> & Hd).
    destruct (hs_path_exists V dim h id HI) as (p & Hp); [destruct HI; lia|].
    pose proof (hs_optim_lemma sig V dim depth lr ctx id h tmp p HI Hid Hd Hc Ht Hp) as HS.
    pose proof (hs_run_safe lr ctx (path_steps (fun q => hn_code (hget h q)) (firstn (Z.to_nat depth) p)) (fun x => hn_vec (hget h x)) tmp) as H.
    destruct (hs_steps_run _ _ _ _ _ _) as [[v' t']| |].
    + destruct HS as (h' & -> & _). discriminate.
    + rewrite HS. discriminate.
    + auto.
Qed.
End Sig.

Lemma reach_ok sig calls dim opt :
  let d := fold_left dict_add calls dict_new in
  Z.of_nat (dict_len d) < 2 ^ 63 -> opt_reach sig d dim opt -> opt_ok (dict_len d) dim opt.
Proof.
  intros d HV. induction 1 as [rows k Hr Hl|h set depth E Hd|opt lr ctx id next tmp next' opt' tmp' HR IH Hc Ht Hid E].
  - exists rows; auto.
  - destruct (huffman_hs_inv calls dim h set E) as (HI & ->). split; auto.
  - exact (proj1 (optim_ok sig _ _ _ _ _ _ _ _ _ _ _ IH HV Hid Hc Ht E)).
Qed.

(** Not a panic, and [P] on a returned value. *)
Definition safe {S} (P : S -> Prop) (o : outcome S) : Prop :=
  match o with Ret s => P s | Err _ => True | Panic => False end.

Lemma ofold_inv {A S} (Inv : S -> Prop) (f : A -> S -> outcome S) : forall l s,
  Inv s -> (forall a s, In a l -> Inv s -> safe Inv (f a s)) ->
  safe Inv (ofold f l s).
Proof.
  induction l as [|a l IH]; intros s Hs Hf; cbn [ofold]; [exact Hs|].
  pose proof (Hf a s (or_introl eq_refl) Hs) as H1. destruct (f a s) as [s1| |]; cbn [obind]; auto.
  apply IH; auto. intros b t Hb. apply Hf. right; auto.
Qed.

Lemma context_sub pos r r' len c : r <= r' -> In c (context pos r len) -> In c (context pos r' len).
Proof. rewrite !context_In. lia. Qed.

Lemma zindex_doc (doc : list Z) c : 0 <= c < Z.of_nat (length doc) -> zindex doc c = Some (nth (Z.to_nat c) doc 0).
Proof.
  intros H. unfold zindex. destruct (Z.ltb_spec c 0); [lia|]. apply nth_error_nth'. lia.
Qed.

Section Train.
Variable sig : f64 -> outcome f64.
Variables (calls : list (list gostring)) (dim : nat).
Let d := fold_left dict_add calls dict_new.
Variables (window : Z) (doc : list Z) (pos : Z) (lr : f64) (prows0 : list (list f64)).
Hypothesis sig_safe : forall x, fle x (f_of_Z (-6)) = false -> fge x (f_of_Z 6) = false -> sig x <> Panic.
Hypothesis HV : Z.of_nat (dict_len d) < 2 ^ 63.
Hypothesis Hw : 1 <= window < 2 ^ 63.
Hypothesis Hdoc : Forall (fun id => 0 <= id < Z.of_nat (dict_len d)) doc.
Hypothesis Hpos : 0 <= pos < Z.of_nat (length doc).

Definition untouched (rows : list (list f64)) : Prop :=
  forall r, (forall c, In c (context pos window (length doc)) -> nth (Z.to_nat c) doc 0 <> Z.of_nat r) ->
            nth r rows [] = nth r prows0 [].

Definition st_ok (st : wstate) : Prop :=
  exists rows, s_param st = of_rows dim rows /\ all_len dim rows /\ length rows = dict_len d /\
    untouched rows /\ opt_reach sig d dim (s_opt st) /\ length (s_agg st) = dim /\ length (s_tmp st) = dim.

Lemma doc_id c : 0 <= c < Z.of_nat (length doc) ->
  exists i, nth (Z.to_nat c) doc 0 = Z.of_nat i /\ (i < dict_len d)%nat.
Proof.
  intros Hc. rewrite Forall_forall in Hdoc.
  assert (Hin : In (nth (Z.to_nat c) doc 0) doc) by (apply nth_In; lia).
  apply Hdoc in Hin. exists (Z.to_nat (nth (Z.to_nat c) doc 0)). split; lia.
Qed.

Lemma untouched_upd rows c i v : In c (context pos window (length doc)) -> nth (Z.to_nat c) doc 0 = Z.of_nat i ->
  untouched rows -> untouched (upd rows i v).
Proof.
  intros Hc Hi HU r Hr. rewrite nth_upd. destruct (Nat.eqb_spec i r) as [->|].
  - exfalso. apply (Hr c); auto.
  - cbn [andb]. apply HU; auto.
Qed.

Lemma sg_body_ok c st : In c (context pos window (length doc)) -> st_ok st ->
  safe st_ok (sg_body sig doc pos lr c st).
Proof.
  intros Hc (rows & Ep & Hrows & Hl & HU & HR & Ha & Ht).
  pose proof (proj1 (context_In _ _ _ _) Hc) as (Hcr & _).
  unfold sg_body. rewrite !zindex_doc by auto.
  destruct (doc_id c Hcr) as (i & Ei & Hi). destruct (doc_id pos Hpos) as (t & Et & Hti).
  rewrite Ei, Et, Ep, of_rows_slice by (auto; lia). cbn [obind].
  pose proof (all_len_nth _ _ i Hrows ltac:(lia)) as Hrl.
  pose proof (reach_ok sig calls dim _ HV HR) as Hok.
  pose proof (optim_safe sig sig_safe _ dim (s_opt st) lr (nth i rows []) t (s_next st) (vzero (s_tmp st)) Hok HV Hti Hrl
    (eq_trans (vzero_length _) Ht)) as HN.
  destruct (optim sig _ _ _ _ _ _) as [[[next' opt'] tmp']| |] eqn:E; cbn [obind]; [|exact I|exfalso; auto].
  destruct (optim_ok sig _ _ _ _ _ _ _ _ _ _ _ Hok HV Hti Hrl (eq_trans (vzero_length _) Ht) E) as (_ & Ht').
  rewrite vadd_into_plus by lia. cbn [obind safe].
  assert (Hv : length (vplus (nth i rows []) tmp') = dim) by (unfold vplus; rewrite zipw_length; lia).
  rewrite of_rows_store by (auto; lia).
  exists (upd rows i (vplus (nth i rows []) tmp')). cbn [s_param s_opt s_agg s_tmp].
  split; auto. split; [apply all_len_upd; auto|]. split; [rewrite upd_length; auto|].
  split; [eapply untouched_upd; eauto|]. split; auto.
  eapply or_step; [exact HR|exact Hrl|rewrite vzero_length; exact Ht|exact Hti|exact E].
Qed.

Lemma draw_del next : exists del, next_random next window = (lcg next, Ret del) /\ 0 <= del < window.
Proof. apply next_random_range_lemma; auto. Qed.

Lemma sg_train_ok st : st_ok st -> safe st_ok (sg_train_one sig window doc pos lr st).
Proof.
  intros Hst. unfold sg_train_one. destruct (draw_del (s_next st)) as (del & -> & Hd). cbn [obind].
  rewrite windowed_context by lia. apply ofold_inv.
  - exact Hst.
  - intros c s Hc Hs. apply sg_body_ok; auto. eapply context_sub; [|exact Hc]. lia.
Qed.

Lemma cb_aggregate_ok c st : In c (context pos window (length doc)) -> st_ok st ->
  safe st_ok (cb_aggregate doc c st).
Proof.
  intros Hc (rows & Ep & Hrows & Hl & HU & HR & Ha & Ht).
  pose proof (proj1 (context_In _ _ _ _) Hc) as (Hcr & _).
  unfold cb_aggregate. rewrite !zindex_doc by auto. destruct (doc_id c Hcr) as (i & Ei & Hi).
  rewrite Ei, Ep, of_rows_slice by (auto; lia). cbn [obind].
  pose proof (all_len_nth _ _ i Hrows ltac:(lia)) as Hrl.
  rewrite vacc_zip by lia. cbn [obind safe].
  exists rows. cbn [s_param s_opt s_agg s_tmp]. rewrite zipw_length by lia. auto 10.
Qed.

Lemma cb_update_ok c st : In c (context pos window (length doc)) -> st_ok st ->
  safe st_ok (cb_update doc c st).
Proof.
  intros Hc (rows & Ep & Hrows & Hl & HU & HR & Ha & Ht).
  pose proof (proj1 (context_In _ _ _ _) Hc) as (Hcr & _).
  unfold cb_update. rewrite !zindex_doc by auto. destruct (doc_id c Hcr) as (i & Ei & Hi).
  rewrite Ei, Ep, of_rows_slice by (auto; lia). cbn [obind].
  pose proof (all_len_nth _ _ i Hrows ltac:(lia)) as Hrl.
  rewrite vadd_into_plus by lia. cbn [obind safe].
  assert (Hv : length (vplus (nth i rows []) (s_tmp st)) = dim) by (unfold vplus; rewrite zipw_length; lia).
  rewrite of_rows_store by (auto; lia).
  exists (upd rows i (vplus (nth i rows []) (s_tmp st))). cbn [s_param s_opt s_agg s_tmp].
  split; auto. split; [apply all_len_upd; auto|]. split; [rewrite upd_length; auto|].
  split; [eapply untouched_upd; eauto|]. auto.
Qed.

Lemma cb_dowith_ok fn st : (forall c st, In c (context pos window (length doc)) -> st_ok st -> safe st_ok (fn c st)) ->
  st_ok st -> safe st_ok (cb_dowith window doc pos fn st).
Proof.
  intros Hf Hst. unfold cb_dowith. destruct (draw_del (s_next st)) as (del & -> & Hd). cbn [obind].
  rewrite windowed_context by lia. apply ofold_inv.
  - exact Hst.
  - intros c s Hc Hs. apply Hf; auto. eapply context_sub; [|exact Hc]. lia.
Qed.

Lemma cb_train_ok st : st_ok st -> safe st_ok (cb_train_one sig window doc pos lr st).
Proof.
  intros (rows & Ep & Hrows & Hl & HU & HR & Ha & Ht). unfold cb_train_one.
  set (st0 := WState _ _ _ _ _).
  assert (H0 : st_ok st0).
  { exists rows. cbn [s_param s_opt s_agg s_tmp st0]. rewrite !vzero_length. auto 10. }
  pose proof (cb_dowith_ok (cb_aggregate doc) st0 cb_aggregate_ok H0) as H1.
  destruct (cb_dowith window doc pos (cb_aggregate doc) st0) as [st1| |]; cbn [obind]; [|exact I|contradiction H1].
  rewrite zindex_doc by auto. destruct (doc_id pos Hpos) as (t & Et & Hti). rewrite Et.
  destruct H1 as (rows1 & Ep1 & Hrows1 & Hl1 & HU1 & HR1 & Ha1 & Ht1).
  pose proof (reach_ok sig calls dim _ HV HR1) as Hok.
  pose proof (optim_safe sig sig_safe _ dim (s_opt st1) lr (s_agg st1) t (s_next st1) (s_tmp st1) Hok HV Hti Ha1 Ht1) as HN.
  destruct (optim sig _ _ _ _ _ _) as [[[next' opt'] tmp']| |] eqn:E; cbn [obind]; [|exact I|exfalso; auto].
  destruct (optim_ok sig _ _ _ _ _ _ _ _ _ _ _ Hok HV Hti Ha1 Ht1 E) as (_ & Ht').
  apply cb_dowith_ok; [apply cb_update_ok|].
  exists rows1. cbn [s_param s_opt s_agg s_tmp]. split; auto. split; auto. split; auto. split; auto.
  split; auto. eapply or_step; [exact HR1|exact Ha1|exact Ht1|exact Hti|exact E].
Qed.
End Train.

(** ** CBOW as a function *)
Section Cbow.
Variable sig : f64 -> outcome f64.
Variables (V dim : nat) (window : Z) (doc : list nat) (pos : nat) (lr : f64).
Hypothesis Hw : 1 <= window < 2 ^ 63.
Hypothesis Hdoc : Forall (fun id => (id < V)%nat) doc.
Hypothesis Hpos : (pos < length doc)%nat.
Let zdoc := map Z.of_nat doc.
Definition word_at (c : Z) : nat := nth (Z.to_nat c) doc 0%nat.

Lemma word_at_lt c : 0 <= c < Z.of_nat (length doc) -> (word_at c < V)%nat.
Proof. intros H. rewrite Forall_forall in Hdoc. apply Hdoc. apply nth_In. lia. Qed.

Lemma zdoc_index c : 0 <= c < Z.of_nat (length doc) -> zindex zdoc c = Some (Z.of_nat (word_at c)).
Proof.
  intros H. unfold zindex, zdoc. destruct (Z.ltb_spec c 0); [lia|].
  apply map_nth_error. apply nth_error_nth'. lia.
Qed.

Lemma zdoc_length : length zdoc = length doc.
Proof. apply map_length. Qed.

Lemma agg_fold rows next opt tmp : all_len dim rows -> length rows = V -> forall l agg,
  length agg = dim -> (forall c, In c l -> 0 <= c < Z.of_nat (length doc)) ->
  ofold (cb_aggregate zdoc) l (WState next (of_rows dim rows) opt agg tmp) =
  Ret (WState next (of_rows dim rows) opt (fold_left (fun a c => vplus a (nth (word_at c) rows [])) l agg) tmp) /\
  length (fold_left (fun a c => vplus a (nth (word_at c) rows [])) l agg) = dim.
Proof.
  intros Hrows Hl. induction l as [|c l IH]; intros agg Ha Hc; [split; auto|].
  cbn [ofold fold_left]. pose proof (word_at_lt c (Hc c (or_introl eq_refl))) as Hi.
  pose proof (all_len_nth _ _ (word_at c) Hrows ltac:(lia)) as Hrl.
  unfold cb_aggregate at 1. rewrite zdoc_index by (apply Hc; left; auto). cbn [s_param].
  rewrite of_rows_slice by (auto; lia). cbn [obind s_agg]. rewrite vacc_zip by lia. cbn [obind s_next s_opt s_tmp s_param].
  apply IH; [unfold vplus; rewrite zipw_length; lia|]. intros; apply Hc; right; auto.
Qed.

Lemma upd_fold next opt agg tmp : length tmp = dim -> forall l rows,
  all_len dim rows -> length rows = V -> (forall c, In c l -> 0 <= c < Z.of_nat (length doc)) ->
  ofold (cb_update zdoc) l (WState next (of_rows dim rows) opt agg tmp) =
  Ret (WState next (of_rows dim (fold_left (fun rs c => upd rs (word_at c) (vplus (nth (word_at c) rs []) tmp)) l rows)) opt agg tmp).
Proof.
  intros Ht. induction l as [|c l IH]; intros rows Hrows Hl Hc; [reflexivity|].
  cbn [ofold fold_left]. pose proof (word_at_lt c (Hc c (or_introl eq_refl))) as Hi.
  pose proof (all_len_nth _ _ (word_at c) Hrows ltac:(lia)) as Hrl.
  assert (Hv : length (vplus (nth (word_at c) rows []) tmp) = dim) by (unfold vplus; rewrite zipw_length; lia).
  unfold cb_update at 1. rewrite zdoc_index by (apply Hc; left; auto). cbn [s_param].
  rewrite of_rows_slice by (auto; lia). cbn [obind s_agg s_tmp]. rewrite vadd_into_plus by lia.
  cbn [obind s_next s_opt s_tmp s_param]. rewrite of_rows_store by (auto; lia).
  apply IH; [apply all_len_upd; auto|rewrite upd_length; auto|]. intros; apply Hc; right; auto.
Qed.

Lemma draw_radius next : exists del, next_random next window = (lcg next, Ret del) /\
  0 <= del < window /\ del = lcg next mod window.
Proof.
  destruct (draw_next next window Hw) as (E & Hd). eexists. split; [exact E|].
  unfold draw. cbn [Nat.iter].
  pose proof (Z.mod_pos_bound (lcg next) window ltac:(lia)). rewrite Z2Nat.id by lia. split; auto.
Qed.

Lemma cbow_lemma next rows opt agg tmp :
  all_len dim rows -> length rows = V -> length agg = dim -> length tmp = dim ->
  (forall lr ctx id next tmp next' opt' tmp', length ctx = dim -> length tmp = dim -> (id < V)%nat ->
     optim sig opt lr ctx (Z.of_nat id) next tmp = Ret (next', opt', tmp') -> length tmp' = dim) ->
  let w1 := context (Z.of_nat pos) (window - lcg next mod window) (length doc) in
  let agg1 := fold_left (fun a c => vplus a (nth (word_at c) rows [])) w1 (repeat fzero dim) in
  cb_train_one sig window zdoc (Z.of_nat pos) lr (WState next (of_rows dim rows) opt agg tmp) =
  obind (optim sig opt lr agg1 (Z.of_nat (nth pos doc 0%nat)) (lcg next) (repeat fzero dim)) (fun '(next2, opt', tmp') =>
  let w2 := context (Z.of_nat pos) (window - lcg next2 mod window) (length doc) in
  Ret (WState (lcg next2)
        (of_rows dim (fold_left (fun rs c => upd rs (word_at c) (vplus (nth (word_at c) rs []) tmp')) w2 rows))
        opt' agg1 tmp')).
Proof.
  intros Hrows Hl Ha Ht Hopt. cbv zeta. unfold cb_train_one. cbn [s_next s_param s_opt s_agg s_tmp].
  assert (Ez : forall v, length v = dim -> vzero v = repeat fzero dim).
  { intros v Hv. unfold vzero. rewrite <- Hv. clear. induction v; simpl; auto. f_equal; auto. }
  rewrite !Ez by auto. unfold cb_dowith at 1. cbn [s_next s_param s_opt s_agg s_tmp].
  destruct (draw_radius next) as (del & -> & Hd & Ed). cbn [obind].
  rewrite zdoc_length, windowed_context by lia. rewrite <- Ed.
  destruct (agg_fold rows (lcg next) opt (repeat fzero dim) Hrows Hl (context (Z.of_nat pos) (window - del) (length doc)) (repeat fzero dim)) as (Eagg & Hagg).
  { apply repeat_length. } { intros c Hc. apply context_In in Hc. tauto. }
  rewrite Eagg. cbn [obind s_next s_param s_opt s_agg s_tmp].
  rewrite zdoc_index by lia. replace (word_at (Z.of_nat pos)) with (nth pos doc 0%nat) by (unfold word_at; rewrite Nat2Z.id; reflexivity).
  assert (Hid : (nth pos doc 0%nat < V)%nat).
  { rewrite Forall_forall in Hdoc. apply Hdoc, nth_In; auto. }
  match goal with |- obind ?o _ = obind ?o' _ => change o' with o; destruct o as [[[n2 o2] t2]| |] eqn:Eo end; cbn [obind]; auto.
  unfold cb_dowith. cbn [s_next s_param s_opt s_agg s_tmp].
  destruct (draw_radius n2) as (del2 & -> & Hd2 & Ed2). cbn [obind].
  rewrite windowed_context by lia. rewrite <- Ed2, zdoc_length. apply upd_fold; auto.
  - eapply Hopt; [| | |exact Eo]; auto. apply repeat_length.
  - intros c Hc. apply context_In in Hc. tauto.
Qed.
End Cbow.

(** ** Scratch buffers *)
Definition same_but_scratch (a b : wstate) : Prop :=
  s_next a = s_next b /\ s_param a = s_param b /\ s_opt a = s_opt b /\
  length (s_agg a) = length (s_agg b) /\ length (s_tmp a) = length (s_tmp b).

Lemma vzero_len a b : length a = length b -> vzero a = vzero b.
Proof.
  revert b. induction a as [|x a IH]; intros [|y b] H; simpl in *; try discriminate; auto. f_equal. apply IH. lia.
Qed.

Definition agree (x y : outcome wstate) : Prop :=
  match x, y with
  | Ret a, Ret b => same_but_scratch a b
  | Err e, Err f => e = f
  | Panic, Panic => True
  | _, _ => False
  end.

Lemma ofold_agree (f : Z -> wstate -> outcome wstate) :
  (forall c a b, same_but_scratch a b -> agree (f c a) (f c b)) ->
  forall l a b, same_but_scratch a b -> agree (ofold f l a) (ofold f l b).
Proof.
  intros Hf. induction l as [|c l IH]; intros a b H; cbn [ofold]; [exact H|].
  specialize (Hf c a b H). destruct (f c a), (f c b); cbn [obind agree] in *; try tauto. apply IH; auto.
Qed.

Lemma sg_body_agree sig doc pos lr c a b : same_but_scratch a b -> agree (sg_body sig doc pos lr c a) (sg_body sig doc pos lr c b).
Proof.
  intros (A & B & C & D & E). unfold sg_body. rewrite <- A, <- B, <- C, <- (vzero_len _ _ E).
  destruct (zindex doc c); [|exact I]. destruct (zindex doc pos); [|exact I].
  destruct (mat_slice _ _); cbn [obind]; try reflexivity; try exact I.
  destruct (optim _ _ _ _ _ _ _) as [[[n1 o1] t1]| |]; cbn [obind]; try reflexivity; try exact I.
  destruct (vadd_into _ _); cbn [obind]; try reflexivity; try exact I.
  repeat split; auto.
Qed.

Lemma win_loop_agree (f : Z -> wstate -> outcome wstate) len pos window :
  (forall c a b, same_but_scratch a b -> agree (f c a) (f c b)) ->
  forall n x a b, same_but_scratch a b -> agree (win_loop f len pos window n x a) (win_loop f len pos window n x b).
Proof.
  intros Hf n x a b H. rewrite !win_loop_ofold. apply ofold_agree; auto.
Qed.

Lemma sg_scratch sig window doc pos lr a b : same_but_scratch a b ->
  agree (sg_train_one sig window doc pos lr a) (sg_train_one sig window doc pos lr b).
Proof.
  intros H. pose proof H as (A & B & C & D & E). unfold sg_train_one. rewrite <- A.
  destruct (next_random (s_next a) window) as [n1 o]. destruct o; cbn [obind]; try reflexivity; try exact I.
  apply win_loop_agree; [apply sg_body_agree|]. repeat split; auto.
Qed.

Lemma cb_scratch sig window doc pos lr a b : same_but_scratch a b ->
  cb_train_one sig window doc pos lr a = cb_train_one sig window doc pos lr b.
Proof.
  intros (A & B & C & D & E). unfold cb_train_one. rewrite A, B, C, (vzero_len _ _ D), (vzero_len _ _ E). reflexivity.
Qed.
