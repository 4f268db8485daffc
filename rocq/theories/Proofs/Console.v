From Coq Require Import Lia Reals Lra.
From Verif.Lib Require Import Go F64 F64Facts ListFacts Tac.
From Verif.Spec Require Import Search Console.
From Verif.Model Require Import Embedding Search Console.
From Verif.Proofs Require Import Search.
Local Open Scope Z_scope.

Definition zeros (dim : Z) : list f64 := repeat fzero (Z.to_nat dim).
Definition fresh (dim : Z) : cursor := Cursor [] [] (zeros dim).

Lemma new_spec items k co cur : console_new items k = Ret (co, cur) ->
  co_items co = items /\ co_k co = k /\ 0 <= co_dim co /\ cur = fresh (co_dim co) /\ exists e, In e items /\ co_dim co = e_dim e.
Proof.
  unfold console_new. destruct items as [|e items]; [discriminate|]. unfold make_vec. destruct (Z.ltb_spec (e_dim e) 0); [discriminate|].
  cbn [obind]. intros H1. injection H1 as <- <-. cbn. repeat split; auto. exists e. auto.
Qed.

Lemma eval_fresh co e cur : 0 <= co_dim co -> fst (eval co e cur) = fresh (co_dim co).
Proof. intros H. unfold eval. destruct (eval_body co e cur). unfold make_vec. destruct (Z.ltb_spec (co_dim co) 0); [lia|]. reflexivity. Qed.
Lemma eval_snd co e cur : 0 <= co_dim co -> snd (eval co e cur) = snd (eval_body co e cur).
Proof. intros H. unfold eval. destruct (eval_body co e cur). unfold make_vec. destruct (Z.ltb_spec (co_dim co) 0); [lia|]. reflexivity. Qed.

(** ** Histories *)
Definition out_of (t : turn) : list event := match t with Continue _ o | Return o | Crash o => o end.
Lemma turn_cursor pe co p cur o : 0 <= co_dim co -> run_turn pe co (fresh (co_dim co)) p = Continue cur o -> cur = fresh (co_dim co).
Proof.
  intros H. unfold run_turn. destruct p as [l er]. destruct (gseqb l (bs "exit")); [discriminate|]. destruct (gseqb l []); [intros E; injection E as <- _; reflexivity|].
  pose proof (eval_fresh co (pe l) (fresh (co_dim co)) H) as F. destruct (eval co (pe l) _) as [c r]. cbn in F. destruct r; intros E; try discriminate; injection E as <- _; auto.
Qed.

Lemma run_fresh pe co ps n cur out : 0 <= co_dim co -> run pe co (fresh (co_dim co)) ps n = (Running cur, out) ->
  cur = fresh (co_dim co) /\ out = concat (map (fun i => out_of (run_turn pe co (fresh (co_dim co)) (ps i))) (seq 0 n)).
Proof.
  intros H. revert cur out. induction n as [|n IH]; intros cur out E; [injection E as <- <-; auto|]. cbn [run] in E.
  destruct (run pe co (fresh (co_dim co)) ps n) as [[c| |] o] eqn:R; try discriminate. destruct (IH c o eq_refl) as [-> ->].
  destruct (run_turn pe co (fresh (co_dim co)) (ps n)) as [c' o'|o'|o'] eqn:T; try discriminate. injection E as <- <-.
  split; [eapply turn_cursor; eauto|]. rewrite seq_S, map_app, concat_app. cbn [map concat Nat.add]. rewrite T, app_nil_r. reflexivity.
Qed.

(** ** No panic *)
Lemma proper_valid items e : proper items -> In e items -> emb_validate e = Ret tt.
Proof.
  intros [V _] He. rewrite Forall_forall in V. destruct (V e He) as (A & B & C). unfold emb_validate.
  destruct (gseqb (e_word e) []) eqn:G; [apply gseqb_true in G; contradiction|]. destruct (Z.eqb_spec (e_dim e) 0); [lia|]. cbn [orb].
  destruct (Nat.eqb_spec (length (e_vec e)) 0); [lia|]. rewrite B, Z.eqb_refl. reflexivity.
Qed.
Lemma find_in items w e : embs_find items w = (e, true) -> In e items /\ e_word e = w.
Proof.
  induction items as [|x items IH]; cbn [embs_find]; [discriminate|]. destruct (gseqb w (e_word x)) eqn:G.
  - intros E. injection E as <-. apply gseqb_true in G. split; [left; reflexivity|auto].
  - intros E. destruct (IH E). split; [right; auto|auto].
Qed.
Lemma find_known items w it : known items w it -> embs_find items w = (it, true).
Proof.
  intros (pre & post & -> & Ew & Np). induction pre as [|x pre IH]; cbn [app embs_find map In] in *.
  - rewrite Ew, gseqb_refl. reflexivity.
  - destruct (gseqb w (e_word x)) eqn:G; [apply gseqb_true in G; exfalso; apply Np; left; auto|]. apply IH. intros Hi. apply Np. auto.
Qed.
Lemma find_unknown items w : unknown items w -> embs_find items w = (emb_zero, false).
Proof.
  induction items as [|x items IH]; intros Np; [reflexivity|]. cbn [embs_find]. unfold unknown in *. cbn [map In] in Np.
  destruct (gseqb w (e_word x)) eqn:G; [apply gseqb_true in G; exfalso; apply Np; left; auto|]. apply IH. tauto.
Qed.
Lemma known_in items w it : known items w it -> In it items /\ e_word it = w.
Proof. intros (pre & post & -> & Ew & _). split; auto. apply in_or_app. right. left. reflexivity. Qed.

Lemma zip_length op : forall u v, length u = length v -> length (zip_op op u v) = length u.
Proof. induction u as [|x u IH]; intros [|y v] H; cbn in *; auto; try lia. Qed.
Lemma zip_pointwise op : forall u v, zip_op op u v = pointwise op u v.
Proof. unfold pointwise. induction u as [|x u IH]; intros [|y v]; cbn; auto. f_equal. apply IH. Qed.

Definition good (d : nat) (cur : cursor) : Prop := (length (c_vec cur) <= d)%nat.
Lemma as_embedding_good items e r d : proper items -> good d (fst r) -> snd r <> Panic ->
  good d (fst (as_embedding items e r)) /\ snd (as_embedding items e r) <> Panic /\
  (forall it, snd (as_embedding items e r) = Ret it -> In it items).
Proof.
  intros P G N. destruct r as [cur [u|m|]]; cbn [fst snd] in *; unfold as_embedding; [|split; [auto|split; [discriminate|discriminate]]|contradiction].
  destruct e as [w|x op y|]; try (split; [auto|split; [discriminate|discriminate]]).
  destruct (embs_find items w) as [vi ok] eqn:F. destruct ok; [|split; [auto|split; [discriminate|discriminate]]].
  destruct (find_in _ _ _ F) as [Hi _]. rewrite (proper_valid items vi P Hi). cbn. split; auto. split; [discriminate|]. intros it E. injection E as <-. auto.
Qed.
Lemma eval_expr_good items d : proper items -> (forall e, In e items -> length (e_vec e) = d) -> forall e cur,
  good d cur -> good d (fst (eval_expr items e cur)) /\ snd (eval_expr items e cur) <> Panic.
Proof.
  intros P D. induction e as [w|x IHx op y IHy|]; intros cur G; cbn [eval_expr]; try (split; [auto|discriminate]).
  destruct (IHx cur G) as [Gx Nx]. destruct (as_embedding_good items x _ d P Gx Nx) as (G1 & N1 & I1).
  destruct (as_embedding items x (eval_expr items x cur)) as [cur1 [xi|m|]]; cbn [fst snd] in *; [|split; [auto|discriminate]|contradiction].
  destruct (IHy cur1 G1) as [Gy Ny]. destruct (as_embedding_good items y _ d P Gy Ny) as (G2 & N2 & I2).
  destruct (as_embedding items y (eval_expr items y cur1)) as [cur2 [yi|m|]]; cbn [fst snd] in *; [|split; [auto|discriminate]|contradiction].
  pose proof (D _ (I1 _ eq_refl)) as L1. pose proof (D _ (I2 _ eq_refl)) as L2.
  destruct op as [| |t]; unfold arithmetic, element_wise; rewrite ?L1, ?L2, ?Nat.eqb_refl; cbn [fst snd]; (split; [|discriminate]); unfold good; cbn [c_vec length];
    rewrite ?zip_length by congruence; lia.
Qed.

Lemma proper_dim items e : proper items -> In e items -> forall x, In x items -> length (e_vec x) = Z.to_nat (e_dim e).
Proof. intros [V U] He x Hx. rewrite (U e x He Hx). rewrite Forall_forall in V. destruct (V x Hx) as (_ & -> & _). lia. Qed.

Lemma search_total items v k ign d : proper items -> 1 <= k -> (forall x, In x items -> length (e_vec x) = d) -> (length v <= d)%nat ->
  exists rows, search items (Emb [] 0 v (norm v)) k ign = Ret rows.
Proof.
  intros P Hk D L. destruct (search_ok items (Emb [] 0 v (norm v)) k ign Hk) as (sel & _ & E); [| |eauto].
  - apply Forall_forall. intros it Hi. right. right. right. cbn. rewrite (D it Hi). auto.
  - apply Forall_forall. intros c Hc. unfold candidates in Hc. apply in_map_iff in Hc. destruct Hc as (it & <- & Hi). apply filter_In in Hi.
    destruct P as [V _]. rewrite Forall_forall in V. apply (V it). tauto.
Qed.

Lemma internal_total items w k : proper items -> 1 <= k -> search_internal items w k <> Panic.
Proof.
  intros P Hk. destruct (in_dec gostring_eq_dec w (map e_word items)) as [Hi|Hi]; [|destruct (search_internal_err items w k (or_intror Hi)) as [m ->]; discriminate].
  destruct w as [|b w]; [destruct (search_internal_err items [] k (or_introl eq_refl)) as [m ->]; discriminate|].
  destruct (first_item_split _ _ Hi) as (pre & it & post & E & Ew & Np). subst items. rewrite search_internal_ok by (auto; discriminate).
  assert (Iit : In it (pre ++ it :: post)) by (apply in_or_app; right; left; reflexivity).
  destruct (search_ok (pre ++ it :: post) it k [b :: w] Hk) as (sel & _ & E); [| |rewrite E; discriminate].
  - apply Forall_forall. intros x Hx. right. right. right. rewrite (proper_dim _ it P Iit x Hx), (proper_dim _ it P Iit it Iit). lia.
  - apply Forall_forall. intros c Hc. unfold candidates in Hc. apply in_map_iff in Hc. destruct Hc as (x & <- & Hx). apply filter_In in Hx.
    destruct P as [V _]. rewrite Forall_forall in V. apply (V x). tauto.
Qed.

Lemma eval_no_panic items k co cur0 e : proper items -> 1 <= k -> console_new items k = Ret (co, cur0) -> snd (eval co e cur0) <> Panic.
Proof.
  intros P Hk N. destruct (new_spec _ _ _ _ N) as (E1 & E2 & Hd & -> & e0 & He0 & Ed). rewrite eval_snd by auto.
  unfold eval_body. rewrite E1, E2. destruct e as [[w|x op y|]|]; try discriminate.
  - pose proof (internal_total items w k P Hk). destruct (search_internal items w k); cbn; [discriminate|discriminate|contradiction].
  - pose proof (proper_dim items e0 P He0) as D.
    destruct (eval_expr_good items _ P D (Binary x op y) (fresh (co_dim co))) as [G NP].
    { unfold good, fresh, zeros. cbn. rewrite repeat_length, Ed. lia. }
    destruct (eval_expr items (Binary x op y) (fresh (co_dim co))) as [cur' [u|m|]]; cbn [fst snd] in *; [|discriminate|contradiction].
    destruct (search_total items (c_vec cur') k [c_w1 cur'; c_w2 cur'] _ P Hk D G) as [rows ->]. discriminate.
Qed.

(** ** The loop *)
Lemma run_returned pe co ps : forall n cur out m, run pe co cur ps n = (Returned, out) -> (n <= m)%nat -> run pe co cur ps m = (Returned, out).
Proof. intros n cur out m H L. induction L as [|m L IH]; [auto|]. cbn [run]. rewrite IH. reflexivity. Qed.

Lemma run_status pe items k co cur0 ps n : proper items -> 1 <= k -> console_new items k = Ret (co, cur0) ->
  (fst (run pe co cur0 ps n) = Running cur0 /\ forall i, (i < n)%nat -> fst (ps i) <> bs "exit") \/
  (fst (run pe co cur0 ps n) = Returned /\ exists i, (i < n)%nat /\ fst (ps i) = bs "exit").
Proof.
  intros P Hk N. destruct (new_spec _ _ _ _ N) as (E1 & E2 & Hd & Ec & _). induction n as [|n IH].
  - left. split; [reflexivity|]. intros i H. lia.
  - cbn [run]. destruct IH as [[R A]|[R (i & Hi & Ei)]].
    + destruct (run pe co cur0 ps n) as [st o]. cbn [fst] in R. subst st. destruct (run_turn pe co cur0 (ps n)) as [c' o'|o'|o'] eqn:T; cbn [fst].
      * left. split. { f_equal. rewrite Ec in *. eapply turn_cursor; eauto. }
        intros i Hi. destruct (Nat.eq_dec i n) as [->|]; [|apply A; lia]. intros Ex. unfold run_turn in T. destruct (ps n) as [l er]. cbn in Ex. subst l.
        rewrite gseqb_refl in T. discriminate.
      * right. split; [reflexivity|]. exists n. split; [lia|]. unfold run_turn in T. destruct (ps n) as [l er]. cbn [fst].
        destruct (gseqb l (bs "exit")) eqn:G; [apply gseqb_true in G; auto|]. destruct (gseqb l []); [discriminate|].
        destruct (eval co (pe l) cur0) as [c [x|x|]]; discriminate.
      * exfalso. unfold run_turn in T. destruct (ps n) as [l er]. destruct (gseqb l (bs "exit")); [discriminate|]. destruct (gseqb l []); [discriminate|].
        pose proof (eval_no_panic items k co cur0 (pe l) P Hk N) as NP. destruct (eval co (pe l) cur0) as [c [x|x|]]; try discriminate. apply NP. reflexivity.
    + right. destruct (run pe co cur0 ps n) as [st o]. cbn [fst] in R. subst st. cbn [fst]. split; [reflexivity|]. exists i. split; [lia|auto].
Qed.

(** ** Arithmetic *)
Lemma as_ident items w it cur : proper items -> known items w it -> as_embedding items (Ident w) (eval_expr items (Ident w) cur) = (cur, Ret it).
Proof.
  intros P K. cbn [eval_expr as_embedding]. rewrite (find_known _ _ _ K). destruct (known_in _ _ _ K) as [Hi _]. rewrite (proper_valid items it P Hi). reflexivity.
Qed.
Lemma as_ident_unknown items w cur : unknown items w -> as_embedding items (Ident w) (eval_expr items (Ident w) cur) = (cur, Err "not found word in vector map").
Proof. intros U. cbn [eval_expr as_embedding]. rewrite (find_unknown _ _ U). reflexivity. Qed.
Lemma same_len items a b : proper items -> In a items -> In b items -> length (e_vec a) = length (e_vec b).
Proof. intros P Ha Hb. rewrite !(proper_dim items a P Ha) by auto. reflexivity. Qed.

Definition op_fun (op : token) : option (f64 -> f64 -> f64) := match op with ADD => Some fadd | SUB => Some fsub | OtherOp _ => None end.
Lemma eval_two items w1 it1 w2 it2 op f cur : proper items -> known items w1 it1 -> known items w2 it2 -> op_fun op = Some f ->
  eval_expr items (Binary (Ident w1) op (Ident w2)) cur = (Cursor w1 w2 (pointwise f (e_vec it1) (e_vec it2)), Ret tt).
Proof.
  intros P K1 K2 O. cbn [eval_expr]. change (cur, Ret tt) with (eval_expr items (Ident w1) cur) at 1. rewrite (as_ident items w1 it1) by auto.
  change (cur, Ret tt) with (eval_expr items (Ident w2) cur) at 1. rewrite (as_ident items w2 it2) by auto.
  destruct (known_in _ _ _ K1) as [I1 <-]. destruct (known_in _ _ _ K2) as [I2 <-]. rewrite <- zip_pointwise.
  destruct op; cbn in O; try discriminate; injection O as <-; unfold arithmetic, element_wise; rewrite (same_len items it1 it2 P I1 I2), Nat.eqb_refl; reflexivity.
Qed.
Lemma eval_two_bad items w1 it1 w2 it2 t cur : proper items -> known items w1 it1 -> known items w2 it2 ->
  eval_expr items (Binary (Ident w1) (OtherOp t) (Ident w2)) cur = (Cursor w1 w2 [], Err "invalid operator").
Proof.
  intros P K1 K2. cbn [eval_expr]. change (cur, Ret tt) with (eval_expr items (Ident w1) cur) at 1. rewrite (as_ident items w1 it1) by auto.
  change (cur, Ret tt) with (eval_expr items (Ident w2) cur) at 1. rewrite (as_ident items w2 it2) by auto.
  destruct (known_in _ _ _ K1) as [I1 <-]. destruct (known_in _ _ _ K2) as [I2 <-]. reflexivity.
Qed.

(** A vector with norm 0 finds nothing. *)
Lemma zero_search items v k ign : 1 <= k -> feq (norm v) fzero = true ->
  search items (Emb [] 0 v (norm v)) k ign = Ret (repeat nb_zero (Z.to_nat k - 1)).
Proof.
  intros Hk Z. assert (S0 : forall it, similarity (Emb [] 0 v (norm v)) it = fzero) by (intros it; unfold similarity; cbn [e_norm]; rewrite Z; reflexivity).
  assert (C : candidates items (Emb [] 0 v (norm v)) ign = []).
  { induction items as [|it items IH]; [reflexivity|]. rewrite candidates_cons. unfold is_cand. rewrite S0. change (fgt fzero fzero) with false. rewrite andb_false_r. exact IH. }
  destruct (search_ok items (Emb [] 0 v (norm v)) k ign Hk) as (sel & B & E).
  - apply Forall_forall. intros it _. right. left. exact Z.
  - rewrite C. constructor.
  - rewrite C in B. destruct B as (rest & Pm & _ & _ & L). cbn [length] in L. rewrite Nat.min_0_r in L. destruct sel; [|discriminate].
    rewrite E. cbn [ranked length seq combine map app]. f_equal. f_equal. lia.
Qed.
Lemma zeros_norm d : feq (norm (zeros d)) fzero = true.
Proof.
  unfold norm, zeros. assert (E : fold_left (fun n x => fadd n (fmul x x)) (repeat fzero (Z.to_nat d)) fzero = fzero).
  { induction (Z.to_nat d) as [|n IH]; [reflexivity|]. cbn [repeat fold_left]. change (fadd fzero (fmul fzero fzero)) with fzero. exact IH. }
  rewrite E. reflexivity.
Qed.
