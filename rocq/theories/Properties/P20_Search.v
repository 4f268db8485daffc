(** * C57-C62: searching *)
From Coq Require Import Lia ZArith Reals Lra Sorting.Permutation Sorting.Sorted.
From Flocq Require Import Core BinarySingleNaN.
From Verif.Lib Require Import Go F64 F64Facts.
From Verif.Spec Require Import Lines Search Cosine Training.
From Verif.Model Require Import Reader Embedding ParseFloat Search.
From Verif.Proofs Require Search Cosine.
From Verif.Properties Require P19_Load.
Local Open Scope Z_scope.

(** C58 (and the shape of the answer for C57, C59). For k >= 1, if the query can be compared with every
    item that is not ignored, Search returns the best at most k of the non-ignored items with positive
    similarity, best first, with ranks 1, 2, ...; and if these are m < k then k-1-m blank rows follow. *)
Theorem C58_search : forall items q k ign, 1 <= k ->
  Forall (fun it => e_word it <> []) items ->
  Forall (fun it => In (e_word it) ign \/ comparable q it) items ->
  exists sel, best (Z.to_nat k) (candidates items q ign) sel /\
    search items q k ign = Ret (ranked sel ++ repeat nb_zero (Z.to_nat k - length sel - 1)).
Proof.
  intros items q k ign Hk W C. apply Search.search_ok; auto. apply Forall_forall. intros c Hc. unfold candidates in Hc.
  apply in_map_iff in Hc. destruct Hc as (it & <- & Hi). apply filter_In in Hi. rewrite Forall_forall in W. apply (W it). tauto.
Qed.
Print Assumptions C58_search.

Example C58_case :
  let v (a b : Z) := [f_of_Z a; f_of_Z b] in
  let it w a b := Emb (bs w) 2 (v a b) (norm (v a b)) in
  let items := [it "a" 1 0; it "b" 0 1; it "c" 1 1; it "d" (-1) 0]%string in
  let show r := match r with Ret ns => map (fun n => (string_of_list_byte (n_word n), n_rank n, fshow (n_sim n))) ns | _ => [] end in
  let q := Emb [] 2 (v 3 4) (norm (v 3 4)) in
  show (search items q 2 []) = [("c"%string, 1, Some (8916672341536080, -53)); ("b"%string, 2, Some (7205759403792794, -53))] /\
  map (fun x => snd (fst x)) (show (search items q 5 [])) = [1; 2; 3; 0] /\
  map (fun x => fst (fst x)) (show (search items q 5 [])) = ["c"; "b"; "a"; ""]%string /\
  Forall (fun it => comparable q it) items.
Proof.
  cbv zeta. split; [vm_compute; reflexivity|]. split; [vm_compute; reflexivity|]. split; [vm_compute; reflexivity|].
  repeat constructor; right; right; cbn; lia.
Qed.

(** C57. Every row that is not blank is an item that is not ignored, with its positive similarity to
    the query; row i has rank i+1, and no earlier row has a smaller similarity. *)
Theorem C57_rows : forall items q k ign rows, 1 <= k -> Forall (fun it => e_word it <> []) items ->
  search items q k ign = Ret rows -> forall i n, nth_error rows i = Some n -> n_word n <> [] ->
  n_rank n = Z.of_nat i + 1 /\
  (exists it, In it items /\ ~ In (e_word it) ign /\ n_word n = e_word it /\ n_sim n = similarity q it /\ fgt (n_sim n) fzero = true) /\
  forall j n', (j < i)%nat -> nth_error rows j = Some n' -> n_word n' <> [] /\ fle (n_sim n) (n_sim n') = true.
Proof.
  intros items q k ign rows Hk W E i n Hi Hn.
  assert (C : Forall (fun it => In (e_word it) ign \/ comparable q it) items).
  { destruct (Forall_dec (fun it => In (e_word it) ign \/ comparable q it)
      (fun it => match in_dec gostring_eq_dec (e_word it) ign with left H => left (or_introl H) | right H =>
         match Bool.bool_dec (feq (e_norm q) fzero) true with left Z => left (or_intror (or_introl Z)) | right Z =>
         match Bool.bool_dec (feq (e_norm it) fzero) true with left Y => left (or_intror (or_intror (or_introl Y))) | right Y =>
         match le_dec (length (e_vec q)) (length (e_vec it)) with left L => left (or_intror (or_intror (or_intror L))) | right L =>
         right (fun F => match F with or_introl A => H A | or_intror (or_introl A) => Z A | or_intror (or_intror (or_introl A)) => Y A | or_intror (or_intror (or_intror A)) => L A end) end end end end) items) as [F|F]; [exact F|].
    rewrite Search.search_bad in E by exact F. discriminate. }
  destruct (C58_search items q k ign Hk W C) as (sel & B & Es). rewrite E in Es. injection Es as ->.
  assert (Li : (i < length sel)%nat).
  { destruct (Nat.lt_ge_cases i (length sel)) as [H|H]; [exact H|]. exfalso. rewrite nth_error_app2 in Hi by (rewrite Search.ranked_length; lia).
    apply nth_error_In, repeat_spec in Hi. subst n. apply Hn. reflexivity. }
  assert (NE : forall l : list (gostring * f64), forall s i, (i < length l)%nat ->
     exists c, nth_error l i = Some c /\ nth_error (map (fun p => Nb (fst (snd p)) (Z.of_nat (fst p) + 1) (snd (snd p))) (combine (seq s (length l)) l)) i
               = Some (Nb (fst c) (Z.of_nat (s + i) + 1) (snd c))).
  { clear. induction l as [|c l IH]; intros s i H; [cbn in H; lia|]. destruct i as [|i].
    - exists c. split; [reflexivity|]. cbn. rewrite Nat.add_0_r. reflexivity.
    - cbn [length] in H. destruct (IH (S s) i ltac:(lia)) as (d & D1 & D2). exists d. split; [exact D1|]. cbn [length seq combine map nth_error].
      rewrite D2. do 3 f_equal. lia. }
  destruct B as (rest & P & So & _ & _).
  destruct (NE sel 0%nat i Li) as (c & Hc & Hr). rewrite nth_error_app1 in Hi by (rewrite Search.ranked_length; lia). unfold ranked in Hi. rewrite Hr in Hi. injection Hi as <-.
  cbn [n_rank n_word n_sim]. split; [reflexivity|].
  assert (Ic : In c (candidates items q ign)) by (apply (Permutation_in _ P), in_or_app; left; eapply nth_error_In; eauto).
  split.
  - unfold candidates in Ic. apply in_map_iff in Ic. destruct Ic as (it & <- & Hit). apply filter_In in Hit. destruct Hit as [I1 I2].
    apply andb_prop in I2. destruct I2 as [I2 I3]. exists it. cbn [fst snd]. repeat split; auto. destruct (in_dec _ _ _); [discriminate|auto].
  - intros j n' Hj Hj'. destruct (NE sel 0%nat j ltac:(lia)) as (c' & Hc' & Hr'). rewrite nth_error_app1 in Hj' by (rewrite Search.ranked_length; lia).
    unfold ranked in Hj'. rewrite Hr' in Hj'. injection Hj' as <-. cbn [n_word n_sim]. split.
    + assert (Ic' : In c' (candidates items q ign)) by (apply (Permutation_in _ P), in_or_app; left; eapply nth_error_In; eauto).
      unfold candidates in Ic'. apply in_map_iff in Ic'. destruct Ic' as (it & <- & Hit). apply filter_In in Hit. rewrite Forall_forall in W. apply (W it). tauto.
    + clear - So Hj Hc Hc'. revert i j Hj Hc Hc'. induction So as [|a l So IH F]; intros i j Hj Hc Hc'; [destruct i; discriminate|].
      destruct i as [|i]; [lia|]. destruct j as [|j]; [|apply (IH i j); auto; lia].
      injection Hc' as ->. rewrite Forall_forall in F. apply F. eapply nth_error_In. exact Hc.
Qed.
Print Assumptions C57_rows.

(** C57. No item is returned twice: the rows that are not blank are a sub-multiset of the items. *)
Theorem C57_once : forall items q k ign rows, 1 <= k -> Forall (fun it => e_word it <> []) items ->
  Forall (fun it => In (e_word it) ign \/ comparable q it) items -> search items q k ign = Ret rows ->
  exists others, Permutation
    (map (fun n => (n_word n, n_sim n)) (filter (fun n => negb (gseqb (n_word n) [])) rows) ++ others)
    (map (fun it => (e_word it, similarity q it)) items).
Proof.
  intros items q k ign rows Hk W C E. destruct (C58_search items q k ign Hk W C) as (sel & (rest & P & _) & Es). rewrite E in Es. injection Es as ->.
  assert (E1 : map (fun n => (n_word n, n_sim n)) (filter (fun n => negb (gseqb (n_word n) [])) (ranked sel ++ repeat nb_zero (Z.to_nat k - length sel - 1))) = sel).
  { rewrite filter_app.
    assert (forall n, filter (fun n => negb (gseqb (n_word n) [])) (repeat nb_zero n) = []) as -> by (clear; induction n as [|n IH]; [reflexivity|]; cbn [repeat filter]; exact IH).
    rewrite app_nil_r. assert (NE : Forall (fun c : gostring * f64 => fst c <> []) sel).
    { apply Forall_forall. intros c Hc. assert (Ic : In c (candidates items q ign)) by (apply (Permutation_in _ P), in_or_app; auto).
      unfold candidates in Ic. apply in_map_iff in Ic. destruct Ic as (it & <- & Hit). apply filter_In in Hit. rewrite Forall_forall in W. apply (W it). tauto. }
    unfold ranked. clear - NE. generalize 0%nat. induction NE as [|c l Hc _ IH]; intros s; [reflexivity|]. cbn [length seq combine map filter fst snd n_word].
    destruct (gseqb (fst c) []) eqn:G; [apply Search.gseqb_true in G; contradiction|]. cbn [negb map n_word n_sim]. rewrite IH. destruct c; reflexivity. }
  rewrite E1.
  assert (G : forall f : embedding -> bool, exists l, Permutation (map (fun it => (e_word it, similarity q it)) (filter f items) ++ l) (map (fun it => (e_word it, similarity q it)) items)).
  { intros f. clear. induction items as [|it items [l IH]]; [exists []; constructor|]. cbn [filter map]. destruct (f it).
    - exists l. cbn [map app]. constructor. exact IH.
    - exists ((e_word it, similarity q it) :: l). eapply Permutation_trans; [apply Permutation_sym, Permutation_middle|]. constructor. exact IH. }
  destruct (G (fun it => (if in_dec gostring_eq_dec (e_word it) ign then false else true) && fgt (similarity q it) fzero)) as [l Hl].
  exists (rest ++ l). rewrite app_assoc. eapply Permutation_trans; [apply Permutation_app_tail; exact P|exact Hl].
Qed.
Print Assumptions C57_once.

(** C59. With m non-ignored items of positive similarity there are k rows if m >= k and otherwise k-1,
    of which m are filled. *)
Theorem C59_row_count : forall items q k ign, 1 <= k -> Forall (fun it => e_word it <> []) items ->
  Forall (fun it => In (e_word it) ign \/ comparable q it) items ->
  let m := Z.of_nat (length (candidates items q ign)) in
  exists rows, search items q k ign = Ret rows /\
    Z.of_nat (length rows) = (if k <=? m then k else k - 1) /\
    Z.of_nat (length (filter (fun n => gseqb (n_word n) []) rows)) = Z.max 0 (k - 1 - m).
Proof.
  intros items q k ign Hk W C m. destruct (C58_search items q k ign Hk W C) as (sel & (rest & P & _ & _ & L) & Es). eexists. split; [exact Es|].
  rewrite app_length, Search.ranked_length, repeat_length, filter_app, app_length.
  assert (E1 : forall n, length (filter (fun n => gseqb (n_word n) []) (repeat nb_zero n)) = n) by (clear; induction n as [|n IH]; [reflexivity|]; cbn [repeat filter]; cbn; f_equal; exact IH).
  assert (E2 : filter (fun n => gseqb (n_word n) []) (ranked sel) = []).
  { assert (NE : forall n, In n (ranked sel) -> n_word n <> []).
    { intros n Hn. apply Search.ranked_in in Hn. assert (Ic : In (n_word n, n_sim n) (candidates items q ign)) by (apply (Permutation_in _ P), in_or_app; auto).
      unfold candidates in Ic. apply in_map_iff in Ic. destruct Ic as (it & Eit & Hit). apply filter_In in Hit. rewrite Forall_forall in W.
      injection Eit as <- _. apply (W it). tauto. }
    clear - NE. induction (ranked sel) as [|n l IH]; [reflexivity|]. cbn [filter]. destruct (gseqb (n_word n) []) eqn:G; [apply Search.gseqb_true in G; exfalso; apply (NE n); auto; left; reflexivity|].
    apply IH. intros x Hx. apply NE. right. exact Hx. }
  rewrite E1, E2. cbn [length]. subst m. destruct (Z.leb_spec k (Z.of_nat (length (candidates items q ign)))); lia.
Qed.
Print Assumptions C59_row_count.

(** C59. k = 0 panics when some non-ignored item has positive similarity and otherwise returns nothing. *)
Theorem C59_zero : forall items q ign, Forall (fun it => In (e_word it) ign \/ comparable q it) items ->
  search items q 0 ign = match candidates items q ign with [] => Ret [] | _ => Panic end.
Proof. exact Search.search_zero. Qed.
Print Assumptions C59_zero.

(** C59. k < 0 panics; so does a non-ignored item that is shorter than the query (both norms not 0). *)
Theorem C59_panics : forall items q k ign,
  k < 0 \/ ~ Forall (fun it => In (e_word it) ign \/ comparable q it) items -> search items q k ign = Panic.
Proof. intros items q k ign [H|H]; [apply Search.search_neg; auto|apply Search.search_bad; auto]. Qed.
Print Assumptions C59_panics.

Example C59_case :
  let it w a := Emb (bs w) 1 [f_of_Z a] (norm [f_of_Z a]) in
  let items := [it "a" 1; it "b" 2]%string in
  let q := Emb [] 1 [f_of_Z 1] (norm [f_of_Z 1]) in
  let n r := match r with Ret ns => Some (length ns) | _ => None end in
  map (fun k => n (search items q k [])) [-1; 0; 1; 2; 3; 4; 9] = [None; None; Some 1; Some 2; Some 2; Some 3; Some 8]%nat /\
  n (search items q 0 [bs "a"; bs "b"]) = Some 0%nat.
Proof. vm_compute. auto. Qed.

(** C60. SearchInternal fails when w is empty or no item has word w; otherwise it is the search with the
    first such item, ignoring w. *)
Theorem C60_not_found : forall items w k, w = [] \/ ~ In w (map e_word items) -> exists m, search_internal items w k = Err m.
Proof. exact Search.search_internal_err. Qed.
Print Assumptions C60_not_found.
Theorem C60_found : forall pre it post w k, w <> [] -> e_word it = w -> ~ In w (map e_word pre) ->
  search_internal (pre ++ it :: post) w k = search (pre ++ it :: post) it k [w].
Proof. exact Search.search_internal_ok. Qed.
Print Assumptions C60_found.
(** Search never returns an error, so the failures are exactly those above. *)
Theorem C60_error_iff : forall items w k m, search_internal items w k = Err m -> w = [] \/ ~ In w (map e_word items).
Proof.
  intros items w k m E. destruct (in_dec gostring_eq_dec w (map e_word items)) as [Hi|Hi]; [|auto]. destruct w as [|b w]; [auto|]. exfalso.
  destruct (Search.first_item_split _ _ Hi) as (pre & it & post & -> & Ew & Np). rewrite C60_found in E by (auto; discriminate).
  pose proof (Search.search_never_err (pre ++ it :: post) it k [b :: w]) as NE. rewrite E in NE. exact NE.
Qed.
Print Assumptions C60_error_iff.
(** No row carries the word itself. *)
Theorem C60_no_self : forall items w k rows, 1 <= k -> Forall (fun it => e_word it <> []) items ->
  search_internal items w k = Ret rows -> ~ In w (map n_word rows).
Proof.
  intros items w k rows Hk W E Hin. destruct (in_dec gostring_eq_dec w (map e_word items)) as [Hi|Hi].
  2:{ destruct (Search.search_internal_err items w k (or_intror Hi)) as [m Em]. congruence. }
  destruct w as [|b w]; [destruct (Search.search_internal_err items [] k (or_introl eq_refl)) as [m Em]; congruence|].
  destruct (Search.first_item_split _ _ Hi) as (pre & it & post & -> & Ew & Np). rewrite C60_found in E by (auto; discriminate).
  apply in_map_iff in Hin. destruct Hin as (n & En & Hn). apply In_nth_error in Hn. destruct Hn as [i Hn].
  destruct (C57_rows _ _ _ _ _ Hk W E i n Hn) as (_ & (it' & _ & Ni & Ew' & _) & _); [rewrite En; discriminate|].
  apply Ni. left. congruence.
Qed.
Print Assumptions C60_no_self.

Example C60_case :
  let it w a b := Emb (bs w) 2 [f_of_Z a; f_of_Z b] (norm [f_of_Z a; f_of_Z b]) in
  let items := [it "a" 1 0; it "b" 0 1; it "a" 0 1; it "c" 1 1]%string in
  let words r := match r with Ret ns => map (fun n => string_of_list_byte (n_word n)) ns | _ => ["-"%string] end in
  words (search_internal items (bs "a") 1) = ["c"%string] /\ words (search_internal items (bs "x") 1) = ["-"%string].
Proof. vm_compute. auto. Qed.

(** C61. Cosine: 0 when a norm is 0; a panic exactly when both are not 0 and v1 is longer than v2;
    otherwise the quotient of the dot product. *)
Theorem C61_cosine : forall v1 v2 n1 n2,
  cosine v1 v2 n1 n2 =
    if feq n1 fzero || feq n2 fzero then Ret fzero
    else if (length v1 <=? length v2)%nat
         then Ret (fdiv (fdiv (fold_left (fun d p => fadd d (fmul (fst p) (snd p))) (combine v1 v2) fzero) n1) n2)
         else Panic.
Proof.
  intros v1 v2 n1 n2. unfold cosine. destruct (_ || _); [reflexivity|]. destruct (Nat.leb_spec (length v1) (length v2)).
  - rewrite Search.cos_dot_spec by auto. reflexivity.
  - rewrite Search.cos_dot_panic by auto. reflexivity.
Qed.
Print Assumptions C61_cosine.

(** C61. The computed similarity of two vectors of n components of ordinary size differs from the
    true cosine by at most (4n+12) 2^-53. *)
Theorem C61_accuracy : forall u v, length u = length v -> Z.of_nat (length u) <= 2 ^ 20 ->
  Forall ordinary u -> Forall ordinary v -> nonzero u -> nonzero v ->
  exists r, cosine u v (norm u) (norm v) = Ret r /\ is_fin r = true /\
    (Rabs (f2r r - cos_r u v) <= (4 * INR (length u) + 12) * bpow radix2 (-53))%R.
Proof. exact Cosine.cosine_close. Qed.
Print Assumptions C61_accuracy.

(** C61. The true cosine is between -1 and 1 (Cauchy-Schwarz), symmetric and invariant under positive scaling. *)
Theorem C61_exact_bound : forall u v, (-1 <= cos_r u v <= 1)%R.
Proof.
  intros u v. unfold cos_r. pose proof (Cosine.dot_le u v) as H. assert (P : (0 <= len_r u * len_r v)%R) by (apply Rmult_le_pos; apply sqrt_pos).
  apply Rabs_le_inv in H. destruct (Req_dec (len_r u * len_r v) 0) as [Z|Z].
  - rewrite Z. unfold Rdiv. rewrite Z in H. replace (dot_r u v) with 0%R by lra. lra.
  - split; apply (Rmult_le_reg_r (len_r u * len_r v)); try lra; unfold Rdiv; rewrite Rmult_assoc, Rinv_l by auto; lra.
Qed.
Print Assumptions C61_exact_bound.
Theorem C61_exact_sym : forall u v, cos_r u v = cos_r v u.
Proof.
  intros u v. unfold cos_r. assert (E : dot_r u v = dot_r v u).
  { unfold dot_r. revert v. induction u as [|x u IH]; intros [|y v]; try reflexivity. cbn [combine map fold_right fst snd]. rewrite IH. ring. }
  rewrite E, (Rmult_comm (len_r u)). reflexivity.
Qed.
Print Assumptions C61_exact_sym.
Theorem C61_exact_scale : forall c u u' v, (0 < c)%R -> Forall2 (fun x x' => f2r x' = c * f2r x)%R u u' -> cos_r u' v = cos_r u v.
Proof.
  intros c u u' v Hc F. unfold cos_r.
  assert (E1 : dot_r u' v = (c * dot_r u v)%R).
  { unfold dot_r. revert v. induction F as [|x x' u u' E F IH]; intros [|y v]; cbn [combine map fold_right fst snd]; try ring. rewrite IH, E. ring. }
  assert (E2 : dot_r u' u' = (c * c * dot_r u u)%R).
  { unfold dot_r. clear E1. induction F as [|x x' u u' E F IH]; cbn [combine map fold_right fst snd]; [ring|]. rewrite IH, E. ring. }
  assert (E3 : len_r u' = (c * len_r u)%R).
  { unfold len_r. rewrite E2. rewrite sqrt_mult_alt by (apply Rle_0_sqr). rewrite sqrt_square by lra. reflexivity. }
  rewrite E1, E3. destruct (Req_dec (len_r u * len_r v) 0) as [Z|Z].
  - rewrite Rmult_assoc, Z. unfold Rdiv. rewrite Rmult_0_r, Rinv_0. ring.
  - field. repeat split; try lra; intros Y; apply Z; rewrite Y; ring.
Qed.
Print Assumptions C61_exact_scale.

(** C61. Hence in float64 the similarity exceeds 1 by rounding only ... *)
Theorem C61_bound : forall u v r, length u = length v -> Z.of_nat (length u) <= 2 ^ 20 ->
  Forall ordinary u -> Forall ordinary v -> cosine u v (norm u) (norm v) = Ret r -> nonzero u -> nonzero v ->
  (Rabs (f2r r) <= 1 + (4 * INR (length u) + 12) * bpow radix2 (-53))%R.
Proof.
  intros u v r Hl Hn Fu Fv E Nu Nv. destruct (C61_accuracy u v Hl Hn Fu Fv Nu Nv) as (r' & E' & _ & B). rewrite E in E'. injection E' as <-.
  pose proof (C61_exact_bound u v) as H. assert (Rabs (cos_r u v) <= 1)%R by (apply Rabs_le; lra).
  replace (f2r r) with ((f2r r - cos_r u v) + cos_r u v)%R by ring. eapply Rle_trans; [apply Rabs_triang|]. lra.
Qed.
Print Assumptions C61_bound.
(** ... and does: (0.3, 0.5) with itself. *)
Theorem C61_exceeds_one : exists v r, cosine v v (norm v) (norm v) = Ret r /\ fgt r (f_of_Z 1) = true /\ Forall ordinary v /\ nonzero v.
Proof.
  exists [f_dec 3 1; f_dec 5 1].
  assert (E' : match cosine [f_dec 3 1; f_dec 5 1] [f_dec 3 1; f_dec 5 1] (norm [f_dec 3 1; f_dec 5 1]) (norm [f_dec 3 1; f_dec 5 1]) with Ret r => fgt r (f_of_Z 1) = true | _ => False end) by (vm_compute; reflexivity).
  destruct (cosine [f_dec 3 1; f_dec 5 1] [f_dec 3 1; f_dec 5 1] (norm [f_dec 3 1; f_dec 5 1]) (norm [f_dec 3 1; f_dec 5 1])) as [r|m|]; [|contradiction|contradiction].
  exists r. split; [reflexivity|]. split; [exact E'|].
  assert (O : forall n k m e, fshow (f_dec n k) = Some (m, e) -> 2 ^ 52 <= m < 2 ^ 53 -> e = -54 \/ e = -53 -> ordinary (f_dec n k) /\ f2r (f_dec n k) <> 0%R).
  { intros n k m e Hs Hm He. destruct (fshow_spec _ _ _ Hs) as [F V]. pose proof (bpow_gt_0 radix2 e) as P.
    assert (IZR (2 ^ 52) <= IZR m < IZR (2 ^ 53))%R as B by (split; [apply IZR_le|apply IZR_lt]; lia). cbn in B.
    assert (Pm : (0 < IZR m * bpow radix2 e)%R) by (apply Rmult_lt_0_compat; lra).
    split; [|rewrite V; lra]. split; [exact F|]. right. rewrite V, Rabs_pos_eq by lra.
    assert (L : (bpow radix2 (-400) <= bpow radix2 e)%R) by (apply bpow_le; destruct He; lia).
    assert (U : (bpow radix2 e <= bpow radix2 0)%R) by (apply bpow_le; destruct He; lia). cbn [bpow] in U.
    assert (U' : (bpow radix2 53 <= bpow radix2 400)%R) by (apply bpow_le; lia).
    change (bpow radix2 53) with 9007199254740992%R in U'. split; nra. }
  destruct (O 3 1%nat 5404319552844595 (-54) ltac:(vm_compute; reflexivity) ltac:(lia) ltac:(auto)) as [O1 N1].
  destruct (O 5 1%nat 4503599627370496 (-53) ltac:(vm_compute; reflexivity) ltac:(lia) ltac:(auto)) as [O2 N2].
  split; [constructor; [exact O1|constructor; [exact O2|constructor]]|]. exists (f_dec 3 1). split; [left; reflexivity|exact N1].
Qed.
Print Assumptions C61_exceeds_one.

Example C61_case :
  cosine [f_of_Z 1; f_of_Z 2] [f_of_Z 1] (f_of_Z 1) (f_of_Z 1) = Panic /\
  match cosine [f_of_Z 1] [f_of_Z 1; f_of_Z 2] (f_of_Z 1) (f_of_Z 1) with Ret r => fshow r = fshow (f_of_Z 1) | _ => False end /\
  cosine [f_of_Z 1; f_of_Z 2] [] (f_of_Z 1) fzero = Ret fzero.
Proof. split; [vm_compute; reflexivity|]. split; vm_compute; reflexivity. Qed.

(** C62. New fails exactly when two items have different Dim, and keeps the items as they are. *)
Theorem C62_new : forall embs,
  (searcher_new embs = Ret embs <-> forall a b, In a embs -> In b embs -> e_dim a = e_dim b) /\
  ((exists m, searcher_new embs = Err m) <-> exists a b, In a embs /\ In b embs /\ e_dim a <> e_dim b).
Proof.
  intros embs. unfold searcher_new, embs_validate. destruct embs as [|e0 embs].
  - cbn [obind]. split; split; intros H; auto; try (intros ? ? []).
    + destruct H as [m H]; discriminate. + destruct H as (? & ? & [] & _).
  - destruct (forallb (fun e => e_dim e0 =? e_dim e) (e0 :: embs)) eqn:E; cbn [obind].
    + rewrite forallb_forall in E. assert (A : forall a b, In a (e0 :: embs) -> In b (e0 :: embs) -> e_dim a = e_dim b).
      { intros a b Ha Hb. pose proof (E a Ha). pose proof (E b Hb). lia. }
      split; split; intros H; auto. * destruct H as [m H]; discriminate. * destruct H as (a & b & Ha & Hb & N). exfalso. apply N. apply A; auto.
    + assert (N : exists e, In e (e0 :: embs) /\ e_dim e0 <> e_dim e).
      { clear -E. induction (e0 :: embs) as [|e l IH] in E |- *; [discriminate|]. cbn [forallb] in E. apply andb_false_iff in E. destruct E as [E|E].
        - exists e. split; [left; reflexivity|]. lia.
        - destruct (IH E) as (x & Hx & Nx). exists x. split; [right; exact Hx|exact Nx]. }
      destruct N as (e & He & Ne). split; split; intros H; try discriminate.
      * exfalso. apply Ne. apply H; [left; reflexivity|exact He].
      * exists e0, e. split; [left; reflexivity|]. auto.
      * eauto.
Qed.
Print Assumptions C62_new.

(** C62. On loaded embeddings that New accepts, a query of the same dimension and k >= 1 never panics. *)
Theorem C62_loaded_search : forall pf r embs q k ign, load pf r = Ret embs -> searcher_new embs = Ret embs ->
  (forall e, In e embs -> Z.of_nat (length (e_vec q)) = e_dim e) -> 1 <= k ->
  exists rows, search embs q k ign = Ret rows.
Proof.
  intros pf r embs q k ign L N Q Hk.
  destruct (C58_search embs q k ign Hk) as (sel & _ & E); [| |eauto].
  - apply Forall_forall. intros e He. apply (P19_Load.C54_valid pf r embs e L He).
  - apply Forall_forall. intros e He. right. right. right. destruct (P19_Load.C54_valid pf r embs e L He) as (_ & _ & _ & D & _). specialize (Q e He). lia.
Qed.
Print Assumptions C62_loaded_search.
(** Nor does SearchInternal. *)
Theorem C62_loaded_internal : forall pf r embs w k, load pf r = Ret embs -> searcher_new embs = Ret embs -> 1 <= k ->
  search_internal embs w k <> Panic /\ (In w (map e_word embs) -> exists rows, search_internal embs w k = Ret rows).
Proof.
  intros pf r embs w k L N Hk.
  assert (A : In w (map e_word embs) -> exists rows, search_internal embs w k = Ret rows).
  { intros Hi. destruct (Search.first_item_split _ _ Hi) as (pre & it & post & -> & Ew & Np).
    assert (Iit : In it (pre ++ it :: post)) by (apply in_or_app; right; left; reflexivity).
    destruct (P19_Load.C54_valid pf r _ it L Iit) as (V1 & _ & _ & V2 & _).
    rewrite C60_found by (auto; congruence). apply (C62_loaded_search pf r); auto. intros e He. rewrite <- V2.
    apply (proj1 (proj1 (C62_new _)) N); auto. }
  split; [|exact A]. destruct (in_dec gostring_eq_dec w (map e_word embs)) as [Hi|Hi]; [destruct (A Hi) as [rows ->]; discriminate|].
  destruct (Search.search_internal_err embs w k (or_intror Hi)) as [m ->]. discriminate.
Qed.
Print Assumptions C62_loaded_internal.

Example C62_case :
  let text := bs ("a 1 0" ++ P19_Load.nl ++ "b 0.5 1" ++ P19_Load.nl) in
  match load parse_float (file_of text) with
  | Ret es => match searcher_new es with
              | Ret its => match search_internal its (bs "a") 1 with Ret [n] => string_of_list_byte (n_word n) | _ => "?"%string end
              | _ => "?"%string end
  | _ => "?"%string end = "b"%string /\
  searcher_new [Emb (bs "a") 1 [f_of_Z 1] (f_of_Z 1); Emb (bs "b") 2 [f_of_Z 1; f_of_Z 1] (f_of_Z 1)] = Err "dimension for all vectors must be the same".
Proof. vm_compute. auto. Qed.

(** The hypotheses of C57 for three items, one of which is ignored; a query of the same length. *)
Example C57_case :
  let it w a b := Emb (bs w) 2 [f_of_Z a; f_of_Z b] (norm [f_of_Z a; f_of_Z b]) in
  let items := [it "a" 1 0; it "b" 0 1; it "c" 1 1]%string in
  let q := Emb [] 2 [f_of_Z 1; f_of_Z 2] (norm [f_of_Z 1; f_of_Z 2]) in
  Forall (fun it => e_word it <> []) items /\ Forall (fun it => In (e_word it) [bs "c"] \/ comparable q it) items /\
  match search items q 2 [bs "c"] with Ret rows => map (fun n => (string_of_list_byte (n_word n), n_rank n)) rows = [("b"%string, 1); ("a"%string, 2)] | _ => False end.
Proof.
  cbv zeta. split; [repeat constructor; discriminate|]. split; [repeat constructor; right; right; right; cbn; lia|]. vm_compute. reflexivity.
Qed.
