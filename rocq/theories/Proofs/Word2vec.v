From Coq Require Import Reals.
From Flocq Require Import Core BinarySingleNaN.
From Verif.Lib Require Import Go F64 ListFacts Tac.
From Verif.Model Require Import Dictionary ModelUtil Matrix Huffman Window Sigmoid Word2vec.
From Verif.Spec Require Import Rows Training Tree.
From Verif.Proofs Require Import ModelUtil Matrix Window Huffman HuffPath HuffProps.
Local Open Scope Z_scope.

(** ** Vectors *)
Lemma zipw_length f : forall x y, length x = length y -> length (zipw f x y) = length x.
Proof. intros x y H. unfold zipw. rewrite map_length, combine_length. lia. Qed.

Lemma vacc_zip g : forall dst src, length dst = length src -> vacc g dst src = Ret (zipw g dst src).
Proof.
  induction dst as [|d dst IH]; intros [|s src] H; simpl in H; try discriminate; [reflexivity|].
  cbn [vacc]. rewrite IH by lia. reflexivity.
Qed.

Lemma vdot_dot_acc : forall x y acc, length x = length y ->
  vdot acc x y = Ret (fold_left (fun acc p => fadd acc (fmul (fst p) (snd p))) (combine x y) acc).
Proof.
  induction x as [|a x IH]; intros [|b y] acc H; simpl in H; try discriminate; [reflexivity|].
  cbn [vdot combine fold_left fst snd]. apply IH. lia.
Qed.

Lemma vdot_dot x y : length x = length y -> vdot fzero x y = Ret (dot x y).
Proof. apply vdot_dot_acc. Qed.

Lemma vadd_into_plus x y : length x = length y -> vadd_into x y = Ret (vplus x y).
Proof.
  intros H. unfold vadd_into. destruct (Nat.ltb_spec (length y) (length x)); [lia|].
  rewrite H, firstn_all. apply vacc_zip; auto.
Qed.

Lemma axpy_length x g y : length x = length y -> length (axpy x g y) = length x.
Proof. apply zipw_length. Qed.

Lemma vzero_length v : length (vzero v) = length v.
Proof. apply map_length. Qed.

(** ** Matrices given by rows *)
Lemma all_len_nth n rows i : all_len n rows -> (i < length rows)%nat -> length (nth i rows []) = n.
Proof. intros H Hi. unfold all_len in H. rewrite Forall_forall in H. apply H, nth_In; auto. Qed.

Lemma all_len_upd n rows i r : all_len n rows -> length r = n -> all_len n (upd rows i r).
Proof.
  unfold all_len. intros H Hr. revert i. induction H as [|x rows Hx H IH]; intros [|i]; simpl; constructor; auto.
Qed.

Lemma concat_len n rows : all_len n rows -> length (concat rows) = (length rows * n)%nat.
Proof. induction 1 as [|x rows Hx H IH]; simpl; auto. rewrite app_length. lia. Qed.

Lemma concat_split n : forall rows i, all_len n rows -> (i < length rows)%nat ->
  firstn (i * n) (concat rows) = concat (firstn i rows) /\
  skipn (i * n) (concat rows) = nth i rows [] ++ concat (skipn (S i) rows).
Proof.
  induction rows as [|x rows IH]; intros i H Hi; simpl in Hi; [lia|].
  inversion H as [|? ? Hx H']; subst. destruct i as [|i].
  - split; reflexivity.
  - destruct (IH i H') as [E1 E2]; [lia|]. cbn [firstn skipn concat nth].
    replace (S i * length x)%nat with (length x + i * length x)%nat by lia.
    rewrite firstn_app_2, skipn_app, skipn_all2 by lia.
    replace (length x + i * length x - length x)%nat with (i * length x)%nat by lia.
    split; [f_equal; exact E1|exact E2].
Qed.

Lemma of_rows_slice col rows i : all_len col rows -> (i < length rows)%nat ->
  mat_slice (of_rows col rows) (Z.of_nat i) = Ret (nth i rows []).
Proof.
  intros H Hi. unfold mat_slice, slice_ok, start_index, of_rows. cbn [m_array m_col m_row].
  rewrite (concat_len col) by auto.
  replace ((0 <=? Z.of_nat i * Z.of_nat col) && (Z.of_nat i * Z.of_nat col <=? Z.of_nat i * Z.of_nat col + Z.of_nat col) &&
     (Z.of_nat i * Z.of_nat col + Z.of_nat col <=? Z.of_nat (length rows * col))) with true.
  2:{ symmetry. rewrite !andb_true_iff, !Z.leb_le. nia. }
  replace (Z.to_nat (Z.of_nat i * Z.of_nat col)) with (i * col)%nat by nia.
  rewrite Nat2Z.id. destruct (concat_split col rows i H Hi) as [_ ->].
  rewrite firstn_app, (all_len_nth col) by auto. rewrite Nat.sub_diag. simpl. rewrite app_nil_r.
  rewrite firstn_all2; auto. rewrite (all_len_nth col); auto.
Qed.

Lemma upd_split {A} (l : list A) : forall i x, (i < length l)%nat -> upd l i x = firstn i l ++ x :: skipn (S i) l.
Proof.
  induction l as [|y l IH]; intros i x H; simpl in H; [lia|]. destruct i as [|i]; [reflexivity|].
  cbn [upd firstn app]. rewrite IH by lia. reflexivity.
Qed.

Lemma skipn_add {A} : forall b a (l : list A), skipn (b + a) l = skipn a (skipn b l).
Proof. induction b as [|b IH]; intros a [|x l]; simpl; auto. destruct a; reflexivity. Qed.

Lemma of_rows_store col rows i r : all_len col rows -> (i < length rows)%nat -> length r = col ->
  mat_store (of_rows col rows) (Z.of_nat i) r = of_rows col (upd rows i r).
Proof.
  intros H Hi Hr. unfold mat_store, of_rows, start_index. cbn [m_array m_col m_row].
  rewrite upd_length. f_equal.
  replace (Z.to_nat (Z.of_nat i * Z.of_nat col)) with (i * col)%nat by nia.
  destruct (concat_split col rows i H Hi) as [E1 E2]. rewrite E1.
  rewrite upd_split, concat_app by auto. f_equal. cbn [concat]. f_equal.
  rewrite skipn_add, E2.
  pose proof (all_len_nth col rows i H Hi) as Hl.
  rewrite skipn_app, skipn_all2 by lia. rewrite Hl, Hr, Nat.sub_diag. reflexivity.
Qed.

(** ** Constants *)
Lemma minus6 : fopp max_exp = f_of_Z (-6).
Proof. apply B2SF_inj. vm_compute. reflexivity. Qed.

Section Sig.
Variable sig : f64 -> outcome f64.

Lemma ns_grad_predict label lr x : label = 0 \/ label = 1 ->
  ns_grad sig label lr x = obind (predict sig x) (fun s => Ret (fmul (fsub (f_of_Z label) s) lr)).
Proof.
  intros Hl. unfold ns_grad, predict. rewrite minus6. unfold max_exp.
  destruct (fle x (f_of_Z (-6))).
  - cbn [obind]. f_equal. f_equal. destruct Hl as [-> | ->]; apply B2SF_inj; vm_compute; reflexivity.
  - destruct (fge x (f_of_Z 6)); [|reflexivity].
    cbn [obind]. f_equal. f_equal. destruct Hl as [-> | ->]; apply B2SF_inj; vm_compute; reflexivity.
Qed.

Lemma ns_step_rows lr ctx label r rows tmp dim :
  label = 0 \/ label = 1 -> all_len dim rows -> (r < length rows)%nat -> length ctx = dim -> length tmp = dim ->
  ns_step sig lr ctx label (Z.of_nat r) (of_rows dim rows) tmp =
  obind (ns_row_step sig lr ctx (r, label) (rows, tmp)) (fun '(rows', tmp') => Ret (of_rows dim rows', tmp')).
Proof.
  intros Hl Hrows Hr Hc Ht. unfold ns_step, ns_row_step.
  rewrite of_rows_slice by auto. cbn [obind].
  pose proof (all_len_nth _ _ _ Hrows Hr) as Hrl. set (row := nth r rows []) in *.
  rewrite vdot_dot by lia. cbn [obind]. rewrite ns_grad_predict by auto.
  destruct (predict sig (dot row ctx)) as [s| |]; cbn [obind]; auto.
  set (g := fmul (fsub (f_of_Z label) s) lr).
  rewrite firstn_all2 by lia. rewrite vacc_zip by lia. cbn [obind].
  rewrite vacc_zip by lia. cbn [obind]. rewrite of_rows_store; auto.
  rewrite zipw_length; lia.
Qed.

Lemma ns_row_step_inv lr ctx r label rows tmp rows' tmp' dim :
  all_len dim rows -> (r < length rows)%nat -> length ctx = dim -> length tmp = dim ->
  ns_row_step sig lr ctx (r, label) (rows, tmp) = Ret (rows', tmp') ->
  all_len dim rows' /\ length rows' = length rows /\ length tmp' = dim /\
  (forall q, q <> r -> nth q rows' [] = nth q rows []).
Proof.
  intros Hrows Hr Hc Ht. unfold ns_row_step. pose proof (all_len_nth _ _ _ Hrows Hr) as Hrl.
  destruct (predict _ _) as [s| |]; cbn [obind]; try discriminate.
  intros E. injection E as <- <-. split; [|split; [|split]].
  - apply all_len_upd; auto. rewrite axpy_length; lia.
  - apply upd_length.
  - rewrite axpy_length; lia.
  - intros q Hq. rewrite nth_upd. destruct (Nat.eqb_spec r q); [lia|]. reflexivity.
Qed.

Lemma draw_next next v : 1 <= v < 2 ^ 63 ->
  next_random next v = (lcg next, Ret (Z.of_nat (draw next v 0))) /\ (draw next v 0 < Z.to_nat v)%nat.
Proof.
  intros Hv. unfold draw. cbn [Nat.iter].
  pose proof (Z.mod_pos_bound (lcg next) v ltac:(lia)) as Hm.
  split; [|lia]. unfold next_random. rewrite (Z.mod_small v) by (unfold W64; lia).
  destruct (Z.eqb_spec v 0); [lia|]. f_equal. f_equal. unfold int_of_u64.
  rewrite Z2Nat.id by lia. destruct (Z.ltb_spec (lcg next mod v) (2 ^ 63)) as [H|H]; [reflexivity|].
  exfalso. clear -H Hm Hv. set (q := lcg next mod v) in *. lia.
Qed.

Lemma draw_shift next v k : draw (lcg next) v k = draw next v (S k).
Proof. unfold draw. change (Nat.iter (S (S k)) lcg next) with (lcg (Nat.iter (S k) lcg next)).
  f_equal. f_equal. change (Nat.iter (S k) lcg (lcg next)) with (lcg (Nat.iter k lcg (lcg next))). f_equal.
  induction k as [|k IH]; [reflexivity|].
  change (Nat.iter (S k) lcg (lcg next)) with (lcg (Nat.iter k lcg (lcg next))). rewrite IH. reflexivity.
Qed.

Lemma iter_lcg_S k next : Nat.iter k lcg (lcg next) = Nat.iter (S k) lcg next.
Proof.
  induction k as [|k IH]; [reflexivity|].
  change (Nat.iter (S k) lcg (lcg next)) with (lcg (Nat.iter k lcg (lcg next))). rewrite IH. reflexivity.
Qed.

Lemma draws_shift next v k : map (draw (lcg next) v) (seq 0 k) = map (draw next v) (seq 1 k).
Proof.
  rewrite <- seq_shift, map_map. apply map_ext. intros i. apply draw_shift.
Qed.

Lemma ns_negatives_rows lr ctx id dim : length ctx = dim -> forall k next rows tmp,
  all_len dim rows -> 1 <= Z.of_nat (length rows) < 2 ^ 63 -> length tmp = dim ->
  ns_negatives sig lr ctx (Z.of_nat id) k next (of_rows dim rows) tmp =
  obind (ofold (ns_row_step sig lr ctx)
          (map (fun r => (r, 0)) (filter (fun r => negb (Nat.eqb r id)) (map (draw next (Z.of_nat (length rows))) (seq 0 k))))
          (rows, tmp))
    (fun '(rows', tmp') => Ret (Nat.iter k lcg next, of_rows dim rows', tmp')).
Proof.
  intros Hc. induction k as [|k IH]; intros next rows tmp Hrows HV Ht; [reflexivity|].
  cbn [ns_negatives seq map]. change (m_row (of_rows dim rows)) with (Z.of_nat (length rows)).
  destruct (draw_next next _ HV) as (-> & Hd). cbn [obind].
  set (r := draw next (Z.of_nat (length rows)) 0) in *. rewrite Nat2Z.id in Hd.
  cbn [filter]. destruct (Z.eqb_spec (Z.of_nat id) (Z.of_nat r)) as [E|E].
  - replace (r =? id)%nat with true by (symmetry; apply Nat.eqb_eq; lia). cbn [negb].
    rewrite IH by auto. rewrite draws_shift, iter_lcg_S. reflexivity.
  - replace (r =? id)%nat with false by (symmetry; apply Nat.eqb_neq; lia). cbn [negb map ofold].
    rewrite ns_step_rows by auto.
    destruct (ns_row_step sig lr ctx (r, 0) (rows, tmp)) as [[rows1 tmp1]| |] eqn:Es; cbn [obind]; auto.
    destruct (ns_row_step_inv _ _ _ _ _ _ _ _ _ Hrows Hd Hc Ht Es) as (Hr1 & Hl1 & Ht1 & _).
    rewrite IH by (auto; lia). rewrite Hl1, draws_shift, iter_lcg_S. reflexivity.
Qed.

Lemma ns_optim_lemma k lr ctx id next rows tmp dim :
  all_len dim rows -> (id < length rows)%nat -> Z.of_nat (length rows) < 2 ^ 63 ->
  length ctx = dim -> length tmp = dim ->
  ns_optim sig (Z.of_nat k) lr ctx (Z.of_nat id) next (of_rows dim rows) tmp =
  obind (ofold (ns_row_step sig lr ctx) (ns_steps id next (Z.of_nat (length rows)) k) (rows, tmp))
    (fun '(rows', tmp') => Ret (Nat.iter k lcg next, of_rows dim rows', tmp')).
Proof.
  intros Hrows Hid HV Hc Ht. unfold ns_optim, ns_steps. destruct (Z.leb_spec (Z.of_nat k) (-1)); [lia|].
  rewrite ns_step_rows by auto. cbn [ofold].
  destruct (ns_row_step sig lr ctx (id, 1) (rows, tmp)) as [[rows1 tmp1]| |] eqn:Es; cbn [obind]; auto.
  destruct (ns_row_step_inv _ _ _ _ _ _ _ _ _ Hrows Hid Hc Ht Es) as (Hr1 & Hl1 & Ht1 & _).
  rewrite Nat2Z.id, ns_negatives_rows by (auto; lia). rewrite Hl1. reflexivity.
Qed.

Lemma ofold_ns_inv lr ctx dim : length ctx = dim -> forall steps rows tmp rows' tmp',
  all_len dim rows -> length tmp = dim -> Forall (fun s => (fst s < length rows)%nat) steps ->
  ofold (ns_row_step sig lr ctx) steps (rows, tmp) = Ret (rows', tmp') ->
  all_len dim rows' /\ length rows' = length rows /\ length tmp' = dim /\
  (forall q, ~ In q (map fst steps) -> nth q rows' [] = nth q rows []).
Proof.
  intros Hc. induction steps as [|[r l] steps IH]; intros rows tmp rows' tmp' Hrows Ht HF E.
  - injection E as <- <-. auto.
  - cbn [ofold] in E. inversion HF as [|? ? Hr HF']; subst. cbn [fst] in Hr.
    destruct (ns_row_step sig lr ctx (r, l) (rows, tmp)) as [[rows1 tmp1]| |] eqn:Es; cbn [obind] in E; try discriminate.
    destruct (ns_row_step_inv _ _ _ _ _ _ _ _ _ Hrows Hr eq_refl Ht Es) as (Hr1 & Hl1 & Ht1 & Hq1).
    destruct (IH rows1 tmp1 rows' tmp' Hr1 Ht1) as (A & B & C & D); auto.
    { rewrite Hl1. exact HF'. }
    split; auto. split; [lia|]. split; auto. intros q Hq. cbn [map In fst] in Hq.
    rewrite D by tauto. apply Hq1. intros ->. tauto.
Qed.

Lemma ns_steps_lt id next v k : (id < Z.to_nat v)%nat -> 1 <= v -> Forall (fun s => (fst s < Z.to_nat v)%nat) (ns_steps id next v k).
Proof.
  intros Hid Hv. unfold ns_steps. constructor; auto. rewrite Forall_forall. intros s Hs.
  apply in_map_iff in Hs. destruct Hs as (r & <- & Hr). apply filter_In in Hr. destruct Hr as [Hr _].
  apply in_map_iff in Hr. destruct Hr as (i & <- & _). unfold draw. cbn [fst].
  pose proof (Z.mod_pos_bound (Nat.iter (S i) lcg next) v ltac:(lia)). lia.
Qed.

Lemma ns_optim_frame k lr ctx id next rows tmp dim next' m' tmp' :
  all_len dim rows -> (id < length rows)%nat -> Z.of_nat (length rows) < 2 ^ 63 ->
  length ctx = dim -> length tmp = dim ->
  ns_optim sig (Z.of_nat k) lr ctx (Z.of_nat id) next (of_rows dim rows) tmp = Ret (next', m', tmp') ->
  exists rows', m' = of_rows dim rows' /\ next' = Nat.iter k lcg next /\
    all_len dim rows' /\ length rows' = length rows /\ length tmp' = dim /\
    (forall q, q <> id -> ~ In q (map (draw next (Z.of_nat (length rows))) (seq 0 k)) ->
       nth q rows' [] = nth q rows []).
Proof.
  intros Hrows Hid HV Hc Ht E. rewrite ns_optim_lemma in E by auto.
  destruct (ofold _ _ _) as [[rows1 tmp1]| |] eqn:Es; cbn [obind] in E; try discriminate.
  injection E as <- <- <-. exists rows1. split; auto. split; auto.
  pose proof (ns_steps_lt id next (Z.of_nat (length rows)) k) as HL. rewrite Nat2Z.id in HL.
  destruct (ofold_ns_inv _ _ _ Hc _ _ _ _ _ Hrows Ht (HL Hid ltac:(lia)) Es) as (A & B & C & D).
  split; auto. split; auto. split; auto. intros q Hq Hd. apply D. intros Hin.
  unfold ns_steps in Hin. cbn [map In fst] in Hin. destruct Hin as [Hin|Hin]; [lia|].
  rewrite map_map, map_id in Hin. apply filter_In in Hin. tauto.
Qed.

(** ** Hierarchical softmax *)
Definition hs_inv (V dim : nat) (h : heap) : Prop :=
  (V <= length h)%nat /\
  (forall p q, parent_of h p = Some q -> (p < q < length h)%nat) /\
  (forall p q, parent_of h p = Some q -> (V <= q)%nat) /\
  (forall p c, hn_cache (hget h p) = Some c -> root_path (parent_of h) c p) /\
  (forall p, (V <= p < length h)%nat -> length (hn_vec (hget h p)) = dim).

Lemma hget_set_vec h p v y : (p < length h)%nat ->
  hget (set_vec h p v) y = if (p =? y)%nat then HNode (hn_cache (hget h p)) (hn_parent (hget h p)) (hn_val (hget h p)) (hn_code (hget h p)) v
                           else hget h y.
Proof.
  intros Hp. unfold set_vec, hget. rewrite nth_upd. destruct (Nat.eqb_spec p y); cbn [andb]; auto.
  destruct (Nat.ltb_spec p (length h)); auto. lia.
Qed.

Lemma set_vec_same h p v : (p < length h)%nat -> forall y,
  hn_cache (hget (set_vec h p v) y) = hn_cache (hget h y) /\
  hn_parent (hget (set_vec h p v) y) = hn_parent (hget h y) /\
  hn_code (hget (set_vec h p v) y) = hn_code (hget h y) /\
  hn_vec (hget (set_vec h p v) y) = if (y =? p)%nat then v else hn_vec (hget h y).
Proof.
  intros Hp y. rewrite hget_set_vec by auto. rewrite (Nat.eqb_sym y p). destruct (Nat.eqb_spec p y) as [->|]; cbn; auto.
Qed.

Lemma set_vec_length h p v : length (set_vec h p v) = length h.
Proof. apply upd_length. Qed.

Lemma root_path_ext f g p n : (forall x, f x = g x) -> root_path f p n -> root_path g p n.
Proof.
  intros E (A & B & C). split; [|split]; auto.
  - destruct A as (r & rest & -> & H). exists r, rest. split; auto. rewrite <- E; auto.
  - intros l1 a b l2 H. rewrite <- E. eauto.
Qed.

Lemma hs_inv_set_vec V dim h p v : hs_inv V dim h -> (p < length h)%nat -> length v = dim -> hs_inv V dim (set_vec h p v).
Proof.
  intros (A & B & C & D & E) Hp Hv. pose proof (set_vec_same h p v Hp) as S.
  unfold hs_inv. rewrite set_vec_length. unfold parent_of in *. split; [auto|]. split; [|split; [|split]].
  - intros x q. rewrite (proj1 (proj2 (S x))). apply B.
  - intros x q. rewrite (proj1 (proj2 (S x))). apply C.
  - intros x c. rewrite (proj1 (S x)). intros Hc. eapply root_path_ext; [|apply D; exact Hc].
    intros y. symmetry. apply S.
  - intros x Hx. destruct (S x) as (_ & _ & _ & ->). destruct (x =? p)%nat; auto.
Qed.

Lemma hs_inv_get_path V dim h n depth : hs_inv V dim h -> (n < length h)%nat ->
  hs_inv V dim (fst (get_path h n depth)) /\ length (fst (get_path h n depth)) = length h /\
  (forall x, hn_parent (hget (fst (get_path h n depth)) x) = hn_parent (hget h x) /\
             hn_code (hget (fst (get_path h n depth)) x) = hn_code (hget h x) /\
             hn_vec (hget (fst (get_path h n depth)) x) = hn_vec (hget h x)) /\
  (forall p, root_path (parent_of h) p n ->
    snd (get_path h n depth) = if (depth <? 0)%Z then Panic else Ret (firstn (Z.to_nat depth) p)).
Proof.
  intros (A & B & C & D & E) Hn.
  assert (PS : path_state h h). { split; auto. }
  destruct (get_path_step h h n depth B Hn PS) as ((L & F & G) & R).
  set (h2 := fst (get_path h n depth)) in *.
  split; [|split; [exact L|split; [|exact R]]].
  - unfold hs_inv. rewrite L. unfold parent_of in *. split; [auto|]. split; [|split; [|split]].
    + intros p q. rewrite (proj1 (F p)). apply B.
    + intros p q. rewrite (proj1 (F p)). apply C.
    + intros p c Hc. eapply root_path_ext; [|apply G; exact Hc]. intros y. symmetry. apply F.
    + intros p Hp. destruct (F p) as (_ & _ & _ & ->). auto.
  - intros x. destruct (F x) as (? & ? & ? & ?). auto.
Qed.

Lemma hs_path_exists V dim h n : hs_inv V dim h -> (n < length h)%nat -> exists p, root_path (parent_of h) p n.
Proof.
  intros (A & B & C & D & E) Hn. exists (rev (path_up (length h) h n)). apply path_up_root_path; auto; lia.
Qed.

Lemma hs_loop_spec V dim lr ctx : length ctx = dim -> forall path h tmp vecs,
  hs_inv V dim h -> length tmp = dim ->
  (forall l1 a b l2, path = l1 ++ a :: b :: l2 -> parent_of h b = Some a) ->
  (forall x, hn_vec (hget h x) = vecs x) ->
  match hs_steps_run sig lr ctx (path_steps (fun q => hn_code (hget h q)) path) vecs tmp with
  | Ret (vecs', tmp') => exists h', hs_loop sig lr ctx path h tmp = Ret (h', tmp') /\
       hs_inv V dim h' /\ length h' = length h /\ length tmp' = dim /\
       (forall x, hn_vec (hget h' x) = vecs' x /\ hn_code (hget h' x) = hn_code (hget h x) /\
                  hn_parent (hget h' x) = hn_parent (hget h x))
  | Err e => hs_loop sig lr ctx path h tmp = Err e
  | Panic => hs_loop sig lr ctx path h tmp = Panic
  end.
Proof.
  intros Hc. induction path as [|p rest IH]; intros h tmp vecs HI Ht HP HV.
  { cbn. exists h. auto 10. }
  destruct rest as [|q rest'].
  { cbn. exists h. auto 10. }
  change (path_steps (fun q => hn_code (hget h q)) (p :: q :: rest'))
    with ((p, hn_code (hget h q)) :: path_steps (fun q => hn_code (hget h q)) (q :: rest')).
  assert (Hpar : parent_of h q = Some p) by (apply (HP [] p q rest'); reflexivity).
  destruct HI as (I1 & I2 & I3 & I4 & I5).
  assert (Hp : (V <= p < length h)%nat). { specialize (I2 _ _ Hpar). specialize (I3 _ _ Hpar). lia. }
  pose proof (I5 p Hp) as Hvl.
  cbn [hs_steps_run]. rewrite <- (HV p).
  assert (EL : hs_loop sig lr ctx (p :: q :: rest') h tmp =
    (let childCode := hn_code (hget h q) in
      let vec := hn_vec (hget h p) in
      obind (vdot fzero ctx vec) (fun inner =>
      if fle inner (fopp max_exp) || fge inner max_exp then Ret (h, tmp)
      else
        obind (sig inner) (fun s =>
        let g := fmul (fsub (fsub (f_of_Z 1) (f_of_Z (Z.of_nat childCode))) s) lr in
        obind (vacc (fun t v => fadd t (fmul g v)) tmp vec) (fun tmp' =>
        obind (vacc (fun v c => fadd v (fmul g c)) vec (firstn (length vec) ctx)) (fun vec' =>
        hs_loop sig lr ctx (q :: rest') (set_vec h p vec') tmp')))))) by reflexivity.
  rewrite EL. cbv zeta. clear EL. rewrite vdot_dot by lia. cbn [obind].
  rewrite minus6. unfold max_exp. set (x := dot ctx (hn_vec (hget h p))).
  destruct (fle x (f_of_Z (-6)) || fge x (f_of_Z 6)).
  { exists h. unfold hs_inv. auto 12. }
  destruct (sig x) as [s|e|]; cbn [obind]; auto.
  set (g := fmul (fsub (fsub (f_of_Z 1) (f_of_Z (Z.of_nat (hn_code (hget h q))))) s) lr).
  set (vec := hn_vec (hget h p)) in *.
  rewrite vacc_zip by lia. cbn [obind]. rewrite firstn_all2 by lia. rewrite vacc_zip by lia. cbn [obind].
  fold (axpy tmp g vec). fold (axpy vec g ctx).
  pose proof (set_vec_same h p (axpy vec g ctx) ltac:(lia)) as S.
  specialize (IH (set_vec h p (axpy vec g ctx)) (axpy tmp g vec)
                 (fun y => if Nat.eqb y p then axpy vec g ctx else vecs y)).
  assert (Eps : path_steps (fun q0 => hn_code (hget (set_vec h p (axpy vec g ctx)) q0)) (q :: rest') =
                path_steps (fun q0 => hn_code (hget h q0)) (q :: rest')).
  { clear -S. generalize (q :: rest'). induction l as [|a l IHl]; auto. destruct l as [|b l]; auto.
    cbn [path_steps] in *. rewrite IHl. f_equal. f_equal. apply S. }
  rewrite Eps in IH.
  assert (R : forall r r' : outcome ((nat -> list f64) * list f64), r = r' -> True) by auto. clear R.
  match type of IH with _ -> _ -> _ -> _ -> ?G => assert (IH' : G) end.
  { apply IH.
    - apply hs_inv_set_vec; [unfold hs_inv; auto 10|lia|rewrite axpy_length; lia].
    - rewrite axpy_length; lia.
    - intros l1 a b l2 E. unfold parent_of. destruct (S b) as (_ & -> & _). apply (HP (p :: l1) a b l2). rewrite E. reflexivity.
    - intros y. destruct (S y) as (_ & _ & _ & ->). destruct (y =? p)%nat; auto. }
  clear IH. destruct (hs_steps_run _ _ _ _ _ _) as [[vecs' tmp']|e|]; auto.
  destruct IH' as (h' & E1 & E2 & E3 & E4 & E5). exists h'. split; [exact E1|]. split; auto.
  rewrite set_vec_length in E3. split; auto. split; auto. intros y. destruct (E5 y) as (F1 & F2 & F3).
  split; auto. destruct (S y) as (_ & G1 & G2 & _). split; congruence.
Qed.

Lemma root_path_firstn par p n k : root_path par p n ->
  forall l1 a b l2, firstn k p = l1 ++ a :: b :: l2 -> par b = Some a.
Proof.
  intros (_ & B & _) l1 a b l2 E. apply (B l1 a b (l2 ++ skipn k p)).
  rewrite <- (firstn_skipn k p) at 1. rewrite E, <- app_assoc. reflexivity.
Qed.

Lemma hs_optim_lemma V dim depth lr ctx id h tmp p :
  hs_inv V dim h -> (id < V)%nat -> 0 <= depth -> length ctx = dim -> length tmp = dim ->
  root_path (fun y => hn_parent (hget h y)) p id ->
  match hs_steps_run sig lr ctx (path_steps (fun q => hn_code (hget h q)) (firstn (Z.to_nat depth) p))
          (fun x => hn_vec (hget h x)) tmp with
  | Ret (vecs', tmp') => exists h', hs_optim sig depth lr ctx (Z.of_nat id) h (seq 0 V) tmp = Ret (h', tmp') /\
       hs_inv V dim h' /\ length h' = length h /\ length tmp' = dim /\
       (forall x, hn_vec (hget h' x) = vecs' x /\ hn_code (hget h' x) = hn_code (hget h x) /\
                  hn_parent (hget h' x) = hn_parent (hget h x))
  | Err e => hs_optim sig depth lr ctx (Z.of_nat id) h (seq 0 V) tmp = Err e
  | Panic => hs_optim sig depth lr ctx (Z.of_nat id) h (seq 0 V) tmp = Panic
  end.
Proof.
  intros HI Hid Hdep Hc Ht Hp. unfold hs_optim, zindex. destruct (Z.ltb_spec (Z.of_nat id) 0); [lia|].
  rewrite Nat2Z.id. rewrite (nth_error_nth' _ 0%nat) by (rewrite seq_length; lia). rewrite seq_nth by lia. cbn [plus].
  assert (Hn : (id < length h)%nat) by (destruct HI; lia).
  destruct (hs_inv_get_path V dim h id depth HI Hn) as (I2 & L2 & F2 & R2).
  destruct (get_path h id depth) as [h2 o]. cbn [fst snd] in *. rewrite (R2 p Hp).
  destruct (Z.ltb_spec depth 0); [lia|]. cbn [obind].
  pose proof (hs_loop_spec V dim lr ctx Hc (firstn (Z.to_nat depth) p) h2 tmp (fun x => hn_vec (hget h x)) I2 Ht) as HS.
  assert (Eps : forall l, path_steps (fun q => hn_code (hget h2 q)) l = path_steps (fun q => hn_code (hget h q)) l).
  { induction l as [|a l IHl]; auto. destruct l as [|b l]; auto.
    cbn [path_steps] in *. rewrite IHl. f_equal. f_equal. apply F2. }
  rewrite Eps in HS.
  assert (HS1 : forall l1 a b l2, firstn (Z.to_nat depth) p = l1 ++ a :: b :: l2 -> parent_of h2 b = Some a).
  { intros l1 a b l2 E. unfold parent_of. destruct (F2 b) as (-> & _). eapply (root_path_firstn _ _ _ _ Hp); eauto. }
  assert (HS2 : forall x, hn_vec (hget h2 x) = hn_vec (hget h x)) by (intros; apply F2).
  specialize (HS HS1 HS2).
  destruct (hs_steps_run _ _ _ _ _ _) as [[vecs' tmp']|e|]; auto.
  destruct HS as (h' & E1 & E2 & E3 & E4 & E5). exists h'. split; auto. split; auto. split; [congruence|]. split; auto.
  intros x. destruct (E5 x) as (A & B & C). destruct (F2 x) as (D & E & F). split; auto. split; congruence.
Qed.

(** Frame: only the inner nodes on the steps change. *)
Lemma hs_steps_frame lr ctx : forall steps vecs tmp vecs' tmp',
  hs_steps_run sig lr ctx steps vecs tmp = Ret (vecs', tmp') ->
  forall x, ~ In x (map fst steps) -> vecs' x = vecs x.
Proof.
  induction steps as [|[p c] steps IH]; intros vecs tmp vecs' tmp' E x Hx.
  - injection E as <- <-. reflexivity.
  - cbn [hs_steps_run] in E. destruct (_ || _). { injection E as <- <-. reflexivity. }
    destruct (sig _); cbn [obind] in E; try discriminate. cbn [map In fst] in Hx.
    rewrite (IH _ _ _ _ E) by tauto. destruct (Nat.eqb_spec x p); auto. subst; tauto.
Qed.

Lemma path_steps_fst code : forall l, map fst (path_steps code l) = removelast l.
Proof.
  induction l as [|a l IH]; auto. destruct l as [|b l]; auto.
  change (path_steps code (a :: b :: l)) with ((a, code b) :: path_steps code (b :: l)).
  change (removelast (a :: b :: l)) with (a :: removelast (b :: l)).
  cbn [map fst]. rewrite IH. reflexivity.
Qed.
End Sig.

Lemma huffman_hs_inv calls dim h set :
  let d := fold_left dict_add calls dict_new in
  huffman_tree d (Z.of_nat dim) = Ret (h, set) -> hs_inv (dict_len d) dim h /\ set = seq 0 (dict_len d).
Proof.
  intros d E. destruct (huffman_inv _ _ _ _ E) as (R & Hd & F & HI). fold d in R, Hd, HI.
  destruct (huffman_structure_lemma calls (Z.of_nat dim)) as [_ HS]. fold d in HS. cbv zeta in HS.
  destruct HS as (h' & E' & L & Hleaf & Hin & _); [left; lia|].
  assert (h' = h /\ set = seq 0 (dict_len d)) as [-> ->] by (split; congruence).
  split; auto. unfold hs_inv.
  pose proof (inv_up _ _ _ _ _ HI) as Hup. pose proof (inv_cache _ _ _ _ _ HI) as Hca.
  split; [lia|]. split; [exact Hup|]. split; [|split].
  - intros p q Hpq. destruct (le_lt_dec (dict_len d) q); auto. exfalso.
    destruct (Hleaf q l) as (_ & _ & H). apply (H p). exact Hpq.
  - intros p c. rewrite Hca. discriminate.
  - intros p Hp. destruct (Hin p Hp) as (_ & _ & _ & _ & _ & _ & _ & _ & _ & ->). rewrite repeat_length. lia.
Qed.
