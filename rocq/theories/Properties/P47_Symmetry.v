(** * C111: similarity is symmetric up to rounding *)
From Coq Require Import Lia Reals Lra List Sorting.Permutation.
From Flocq Require Import Core BinarySingleNaN.
From Verif.Lib Require Import Go F64 F64Facts.
From Verif.Spec Require Import Lines Cosine Search Symmetry.
From Verif.Model Require Import Reader Embedding Search ParseFloat.
From Verif.Proofs Require Search Symmetry.
From Verif.Properties Require P19_Load P20_Search.
Local Open Scope Z_scope.

(** C111. Exchanging query and item changes a similarity by at most 5 * 2^-53 of its value, and never its being
    positive (which decides whether the item is returned). *)
Theorem C111_nearly_symmetric : forall u v, length u = length v -> Z.of_nat (length u) <= 2 ^ 20 ->
  Forall moderate u -> Forall moderate v -> nonzero u -> nonzero v ->
  exists r r', cosine u v (norm u) (norm v) = Ret r /\ cosine v u (norm v) (norm u) = Ret r' /\ is_fin r = true /\ is_fin r' = true /\
    ((0 < f2r r)%R <-> (0 < f2r r')%R) /\ (Rabs (f2r r - f2r r') <= 5 * bpow radix2 (-53) * Rabs (f2r r))%R.
Proof. exact Symmetry.cosine_symmetric. Qed.
Print Assumptions C111_nearly_symmetric.

(** C111. But not exactly symmetric: Search divides by the length of the query first. (1, 1) and (1, 2). *)
Theorem C111_not_symmetric : exists u v r r', Forall moderate u /\ Forall moderate v /\
  cosine u v (norm u) (norm v) = Ret r /\ cosine v u (norm v) (norm u) = Ret r' /\ feq r r' = false.
Proof.
  set (u := [f_of_Z 1; f_of_Z 1]). set (v := [f_of_Z 1; f_of_Z 2]).
  assert (M : forall z, 1 <= z <= 2 -> moderate (f_of_Z z)).
  { intros z Hz. destruct (f_of_Z_exact z ltac:(lia)) as [E F]. split; [exact F|]. right. rewrite E, Rabs_pos_eq by (apply IZR_le; lia).
    assert (1 <= IZR z <= 2)%R by (split; apply IZR_le; lia). split.
    - apply Rle_trans with (bpow radix2 0); [apply bpow_le; lia|cbn; lra].
    - apply Rle_trans with (bpow radix2 1); [cbn; lra|apply bpow_le; lia]. }
  assert (E : match cosine u v (norm u) (norm v), cosine v u (norm v) (norm u) with Ret r, Ret r' => feq r r' | _, _ => true end = false) by (vm_compute; reflexivity).
  destruct (cosine u v (norm u) (norm v)) as [r| |] eqn:E1; try discriminate E. destruct (cosine v u (norm v) (norm u)) as [r'| |] eqn:E2; try discriminate E.
  exists u, v, r, r'. assert (Fl : Forall moderate u /\ Forall moderate v) by (split; (constructor; [apply M; lia|constructor; [apply M; lia|constructor]])). destruct Fl. auto 10.
Qed.
Print Assumptions C111_not_symmetric.

(** Two neighbours of each other. *)
Definition listed (w : gostring) (rows : list neighbor) : Prop := exists n, In n rows /\ n_word n = w.

(** All candidates are returned when [k] is at least the number of items. *)
Lemma all_listed items q k ign w : 1 <= k -> Forall (fun it => e_word it <> []) items ->
  Forall (fun it => In (e_word it) ign \/ comparable q it) items -> Z.of_nat (length items) <= k -> w <> [] ->
  exists rows, search items q k ign = Ret rows /\
    (forall n, In n rows -> n_word n = w -> exists it, In it items /\ e_word it = w /\ n_sim n = similarity q it) /\
    (listed w rows <-> exists it, In it items /\ e_word it = w /\ ~ In w ign /\ fgt (similarity q it) fzero = true).
Proof.
  intros Hk W C HL Nw. destruct (P20_Search.C58_search items q k ign Hk W C) as (sel & (rest & P & _ & _ & L) & E).
  assert (LC : (length (candidates items q ign) <= length items)%nat) by (unfold candidates; rewrite map_length; clear; induction items as [|x l IH]; cbn [filter length]; [lia|]; match goal with |- context [if ?c then _ else _] => destruct c end; cbn [length]; lia).
  assert (R0 : rest = []). { pose proof (Permutation_length P) as Q. rewrite app_length in Q. destruct rest; [reflexivity|cbn [length] in Q; lia]. }
  rewrite R0, app_nil_r in P. exists (ranked sel ++ repeat nb_zero (Z.to_nat k - length sel - 1)). split; [exact E|].
  assert (IR : forall n, In n (ranked sel ++ repeat nb_zero (Z.to_nat k - length sel - 1)) -> n_word n = w -> In (w, n_sim n) (candidates items q ign)).
  { intros n Hn Ew. apply in_app_or in Hn. destruct Hn as [Hn|Hn].
    - apply Proofs.Search.ranked_in in Hn. rewrite Ew in Hn. exact (Permutation_in _ P Hn).
    - apply repeat_spec in Hn. subst n. exfalso. apply Nw. symmetry. exact Ew. }
  assert (IC : forall s, In (w, s) (candidates items q ign) -> exists it, In it items /\ e_word it = w /\ s = similarity q it /\ ~ In w ign /\ fgt (similarity q it) fzero = true).
  { intros s Hs. unfold candidates in Hs. apply in_map_iff in Hs. destruct Hs as (it & Eq & Hi). apply filter_In in Hi. destruct Hi as [Hi Hf].
    apply andb_prop in Hf. destruct Hf as [Hg Hf]. assert (Ew : e_word it = w) by congruence. assert (Es : s = similarity q it) by congruence.
    exists it. repeat split; auto. rewrite <- Ew. destruct (in_dec gostring_eq_dec (e_word it) ign); [discriminate Hg|assumption]. }
  split.
  - intros n Hn Ew. destruct (IC _ (IR n Hn Ew)) as (it & A & B & D & _). exists it. auto.
  - split.
    + intros (n & Hn & Ew). destruct (IC _ (IR n Hn Ew)) as (it & A & B & _ & D & F). exists it. auto.
    + intros (it & Hi & Ew & Ni & Hf).
      assert (Hc : In (w, similarity q it) sel).
      { apply (Permutation_in _ (Permutation_sym P)). unfold candidates. apply in_map_iff. exists it. split; [rewrite Ew; reflexivity|]. apply filter_In. split; [exact Hi|].
        rewrite Ew, Hf. destruct (in_dec gostring_eq_dec w ign); [contradiction|reflexivity]. }
      assert (MS : forall l s0, map snd (combine (seq s0 (length l)) l) = (l : list (gostring * f64))) by (clear; induction l as [|c l IH]; intros s0; [reflexivity|]; cbn [length seq combine map snd]; f_equal; apply IH).
      rewrite <- (MS sel 0%nat) in Hc. apply in_map_iff in Hc. destruct Hc as ((i & c) & Ec & Hc). cbn [snd] in Ec. subst c.
      exists (Nb w (Z.of_nat i + 1) (similarity q it)). split; [|reflexivity]. apply in_or_app. left. unfold ranked. apply in_map_iff. exists (i, (w, similarity q it)). split; [reflexivity|exact Hc].
Qed.

(** C111. So when all neighbours are asked for, being a neighbour is mutual: for two words of a loaded file with
    distinct words and moderate numbers, one is returned for the other exactly if the other is for it. *)
Theorem C111_mutual : forall pf rd embs a b k, load pf rd = Ret embs -> searcher_new embs = Ret embs -> NoDup (map e_word embs) ->
  Forall (fun e => Forall moderate (e_vec e) /\ e_dim e <= 2 ^ 20) embs ->
  In a embs -> In b embs -> a <> b -> 1 <= k -> Z.of_nat (length embs) <= k ->
  exists rows rows', search_internal embs (e_word a) k = Ret rows /\ search_internal embs (e_word b) k = Ret rows' /\
    (listed (e_word b) rows <-> listed (e_word a) rows') /\
    forall n n', In n rows -> n_word n = e_word b -> In n' rows' -> n_word n' = e_word a ->
      (Rabs (f2r (n_sim n) - f2r (n_sim n')) <= 5 * bpow radix2 (-53) * Rabs (f2r (n_sim n)))%R.
Proof.
  intros pf rd embs a b k L N ND M Ha Hb Nab Hk HL.
  assert (V : forall e, In e embs -> e_word e <> [] /\ e_dim e = Z.of_nat (length (e_vec e)) /\ e_norm e = norm (e_vec e)).
  { intros e He. destruct (P19_Load.C54_valid pf rd embs e L He) as (A & _ & _ & B & C & _). repeat split; auto. }
  assert (D : forall x y, In x embs -> In y embs -> length (e_vec x) = length (e_vec y)).
  { intros x y Hx Hy. pose proof (proj1 (proj1 (P20_Search.C62_new embs)) N x y Hx Hy). destruct (V x Hx) as (_ & Dx & _). destruct (V y Hy) as (_ & Dy & _). lia. }
  assert (U : forall x y, In x embs -> In y embs -> e_word x = e_word y -> x = y).
  { intros x y Hx Hy Exy. clear - ND Hx Hy Exy. induction embs as [|e l IH]; [destruct Hx|]. cbn [map] in ND. apply NoDup_cons_iff in ND. destruct ND as [N1 N2].
    destruct Hx as [->|Hx], Hy as [->|Hy]; auto; exfalso; apply N1; [rewrite Exy|rewrite <- Exy]; apply in_map; assumption. }
  assert (W : Forall (fun it => e_word it <> []) embs) by (apply Forall_forall; intros e He; apply (V e He)).
  assert (Co : forall x y, In x embs -> In y embs -> comparable x y) by (intros x y Hx Hy; right; right; rewrite (D x y Hx Hy); apply Nat.le_refl).
  assert (SI : forall x, In x embs -> search_internal embs (e_word x) k = search embs x k [e_word x]).
  { intros x Hx. destruct (in_split _ _ Hx) as (pre & post & Es). rewrite Es. apply P20_Search.C60_found; [apply (V x Hx)|reflexivity|].
    rewrite Es in ND. rewrite map_app in ND. cbn [map] in ND. apply NoDup_remove_2 in ND. intros H. apply ND. apply in_or_app. auto. }
  assert (Nw : e_word a <> e_word b) by (intros E; apply Nab, U; auto).
  assert (S : forall x y, In x embs -> In y embs -> fgt (similarity x y) fzero = true -> fgt (similarity y x) fzero = true /\
    (Rabs (f2r (similarity x y) - f2r (similarity y x)) <= 5 * bpow radix2 (-53) * Rabs (f2r (similarity x y)))%R).
  { intros x y Hx Hy P. rewrite Forall_forall in M. destruct (M x Hx) as [Mx Dx]. destruct (M y Hy) as [My _]. destruct (V x Hx) as (_ & Lx & Nx). destruct (V y Hy) as (_ & _ & Ny).
    pose proof (Proofs.Search.cosine_similarity x y (Co x y Hx Hy)) as E1. pose proof (Proofs.Search.cosine_similarity y x (Co y x Hy Hx)) as E2. rewrite Nx, Ny in E1, E2.
    assert (NZ : forall v, Forall moderate v -> feq (norm v) fzero = false -> nonzero v).
    { intros v Fv Zv. destruct (Symmetry.nonzero_dec v) as [H|H]; [exact H|]. pose proof (Symmetry.zero_norm v Fv H). congruence. }
    unfold cosine in E1. destruct (feq (norm (e_vec x)) fzero) eqn:Zx.
    { exfalso. cbn [orb] in E1. injection E1 as E1. rewrite <- E1 in P. vm_compute in P. discriminate P. }
    destruct (feq (norm (e_vec y)) fzero) eqn:Zy.
    { exfalso. cbn [orb] in E1. injection E1 as E1. rewrite <- E1 in P. vm_compute in P. discriminate P. }
    destruct (C111_nearly_symmetric (e_vec x) (e_vec y) (D x y Hx Hy) ltac:(lia) Mx My (NZ _ Mx Zx) (NZ _ My Zy)) as (r & r' & R1 & R2 & F1 & F2 & Sg & Cl).
    unfold cosine in R1. rewrite Zx, Zy in R1. rewrite R1 in E1. injection E1 as E1. rewrite R2 in E2. injection E2 as E2. rewrite <- E1, <- E2 in *. split; [|exact Cl].
    apply fgt_spec in P. destruct P as (_ & _ & P). rewrite fkey_fin in P by exact F1. apply fgt_spec. split; [apply fin_not_nan; exact F2|]. split; [reflexivity|].
    rewrite fkey_fin by exact F2. apply Sg. exact P. }
  destruct (all_listed embs a k [e_word a] (e_word b) Hk W) as (rows & R1 & R2 & R3); [apply Forall_forall; auto|exact HL|apply (V b Hb)|].
  destruct (all_listed embs b k [e_word b] (e_word a) Hk W) as (rows' & R1' & R2' & R3'); [apply Forall_forall; auto|exact HL|apply (V a Ha)|].
  exists rows, rows'. rewrite !SI by assumption. split; [exact R1|]. split; [exact R1'|]. split.
  - rewrite R3, R3'. split; intros (it & Hi & Ew & _ & Hf).
    + pose proof (U _ _ Hi Hb Ew). subst it. exists a. repeat split; auto; [intros [Q|[]]; congruence|]. apply (S a b); auto.
    + pose proof (U _ _ Hi Ha Ew). subst it. exists b. repeat split; auto; [intros [Q|[]]; congruence|]. apply (S b a); auto.
  - intros n n' Hn En Hn' En'. destruct (R2 n Hn En) as (it & Hi & Ew & ->). destruct (R2' n' Hn' En') as (it' & Hi' & Ew' & ->).
    pose proof (U _ _ Hi Hb Ew). pose proof (U _ _ Hi' Ha Ew'). subst it it'. apply (S a b); auto.
    destruct (proj1 R3 (ex_intro _ n (conj Hn En))) as (it & Hi2 & Ew2 & _ & Hf). pose proof (U _ _ Hi2 Hb Ew2). subst it. exact Hf.
Qed.
Print Assumptions C111_mutual.

(** Non-trivial case: three words; "a" and "b" are neighbours of each other, "c" of nobody. *)
Example C111_case :
  let text := bs ("a 1 1" ++ P19_Load.nl ++ "b 1 2" ++ P19_Load.nl ++ "c -1 0" ++ P19_Load.nl) in
  match load parse_float (file_of text) with
  | Ret es =>
      let words r := match r with Ret ns => map (fun n => string_of_list_byte (n_word n)) ns | _ => ["panic"%string] end in
      (match searcher_new es with Ret _ => true | _ => false end) = true /\ length es = 3%nat /\
      words (search_internal es (bs "a") 3) = ["b"; ""]%string /\ words (search_internal es (bs "b") 3) = ["a"; ""]%string /\
      words (search_internal es (bs "c") 3) = [""; ""]%string
  | _ => False end.
Proof. vm_compute. repeat split. Qed.
