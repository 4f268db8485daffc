(** * C99, C100: searching by a vector; the first neighbours do not depend on k nor on the order of the items *)
From Coq Require Import Lia Sorting.Permutation Sorting.Sorted.
From Verif.Lib Require Import Go F64.
From Verif.Spec Require Import Lines Search Training.
From Verif.Model Require Import Reader Embedding Search ParseFloat.
From Verif.Proofs Require Search SearchMore.
From Verif.Properties Require P19_Load P20_Search.
Local Open Scope Z_scope.

(** The similarity of a plain vector with an item: 0 if one of them is a zero vector. *)
Definition vector_similarity (v : list f64) (it : embedding) : f64 :=
  if feq (euclid v) fzero || feq (e_norm it) fzero then fzero
  else fdiv (fdiv (fold_left (fun d p => fadd d (fmul (fst p) (snd p))) (combine v (e_vec it)) fzero) (euclid v)) (e_norm it).
(** The items with positive similarity. *)
Definition similar (items : list embedding) (v : list f64) : list (gostring * f64) :=
  filter (fun c => fgt (snd c) fzero) (map (fun it => (e_word it, vector_similarity v it)) items).

(** C99. SearchVector returns the best at most k items with positive similarity, best first; no word is
    left out, not even one whose vector is the query; if m < k items are similar, k-1-m blank rows follow. *)
Theorem C99_vector : forall items v k, 1 <= k -> Forall (fun it => e_word it <> []) items ->
  Forall (fun it => (length v <= length (e_vec it))%nat) items ->
  exists sel, best (Z.to_nat k) (similar items v) sel /\
    search_vector items v k = Ret (ranked sel ++ repeat nb_zero (Z.to_nat k - length sel - 1)).
Proof.
  intros items v k Hk W L.
  assert (E : similar items v = candidates items (Emb [] 0 v (norm v)) []).
  { unfold similar, candidates. clear. induction items as [|it items IH]; [reflexivity|]. cbn [map filter snd].
    change (vector_similarity v it) with (similarity (Emb [] 0 v (norm v)) it). destruct (in_dec gostring_eq_dec (e_word it) []) as [[]|_]. cbn [andb].
    destruct (fgt _ fzero); cbn [map]; rewrite IH; reflexivity. }
  rewrite E. unfold search_vector. apply P20_Search.C58_search; auto.
  eapply Forall_impl; [|exact L]. intros it H. right. right. right. exact H.
Qed.
Print Assumptions C99_vector.

(** C99. Which queries are accepted: with k >= 1, a query that is longer than some item panics unless one
    of the two has norm 0; a shorter one is compared with the first components (C99_vector). *)
Theorem C99_too_long : forall items v k it, In it items -> (length (e_vec it) < length v)%nat ->
  feq (euclid v) fzero = false -> feq (e_norm it) fzero = false -> search_vector items v k = Panic.
Proof.
  intros items v k it Hi HL Hv Hn. unfold search_vector. apply P20_Search.C59_panics. right. intros F. rewrite Forall_forall in F.
  destruct (F it Hi) as [[]|[C|[C|C]]]; cbn [e_norm e_vec] in C; [|congruence|lia]. change (norm v) with (euclid v) in C. congruence.
Qed.
Print Assumptions C99_too_long.

(** C99. The empty query, and every query of zeros, is similar to nothing: k-1 blank rows, none for k = 0. *)
Theorem C99_zero_query : forall items v k, 0 <= k -> Forall (fun it => e_word it <> []) items -> feq (euclid v) fzero = true ->
  search_vector items v k = Ret (repeat nb_zero (Z.to_nat (k - 1))).
Proof.
  intros items v k Hk W Hv.
  assert (C : forall ign, Forall (fun it => In (e_word it) ign \/ comparable (Emb [] 0 v (norm v)) it) items)
    by (intros ign; apply Forall_forall; intros it _; right; left; exact Hv).
  assert (E : candidates items (Emb [] 0 v (norm v)) [] = []).
  { unfold candidates. clear - Hv. induction items as [|it items IH]; [reflexivity|]. cbn [filter].
    assert (similarity (Emb [] 0 v (norm v)) it = fzero) as -> by (unfold similarity; cbn [e_norm]; change (norm v) with (euclid v); rewrite Hv; reflexivity).
    assert (fgt fzero fzero = false) as -> by (vm_compute; reflexivity). rewrite andb_false_r. exact IH. }
  destruct (Z.eq_dec k 0) as [->|Nk].
  - unfold search_vector. rewrite P20_Search.C59_zero by apply C. rewrite E. reflexivity.
  - destruct (P20_Search.C58_search items (Emb [] 0 v (norm v)) k [] ltac:(lia) W (C [])) as (sel & (rest & _ & _ & _ & L) & Es).
    rewrite E in L. cbn [length] in L. rewrite Nat.min_0_r in L. destruct sel; [|discriminate L].
    unfold search_vector. rewrite Es. cbn [ranked length combine seq map app]. do 2 f_equal. lia.
Qed.
Print Assumptions C99_zero_query.

(** C99. Searching with the vector of a loaded item is searching with that item ... *)
Theorem C99_item : forall pf r embs e k, load pf r = Ret embs -> In e embs -> search_vector embs (e_vec e) k = search embs e k [].
Proof.
  intros pf r embs e k L He. destruct (P19_Load.C54_valid pf r embs e L He) as (_ & _ & _ & _ & N & _).
  unfold search_vector. apply SearchMore.search_ext; [reflexivity|]. cbn [e_norm]. symmetry. exact N.
Qed.
Print Assumptions C99_item.

(** A row without its rank, and the rows that are not blank. *)
Definition row (n : neighbor) : gostring * f64 := (n_word n, n_sim n).
Definition filled (rows : list neighbor) : list neighbor := filter (fun n => negb (gseqb (n_word n) [])) rows.
(** No two items that could be returned are equally similar to the query. *)
Definition no_ties (items : list embedding) (q : embedding) (ign : list gostring) : Prop :=
  forall a b, In a (candidates items q ign) -> In b (candidates items q ign) -> feq (snd a) (snd b) = true -> a = b.

(** ... and SearchInternal(w, k) gives what SearchVector gives for w's vector and k + 1, without w: on a
    loaded file with distinct words and dimensions that New accepts, without ties. *)
Theorem C99_internal : forall pf r embs e k, load pf r = Ret embs -> searcher_new embs = Ret embs -> NoDup (map e_word embs) -> In e embs ->
  1 <= k -> no_ties embs e [] ->
  exists rows rows', search_internal embs (e_word e) k = Ret rows /\ search_vector embs (e_vec e) (k + 1) = Ret rows' /\
    map row (filled rows) = firstn (Z.to_nat k) (filter (fun c => negb (gseqb (fst c) (e_word e))) (map row (filled rows'))).
Proof.
  intros pf r embs e k L N ND He Hk NT.
  assert (W : Forall (fun it => e_word it <> []) embs) by (apply Forall_forall; intros x Hx; apply (P19_Load.C54_valid pf r embs x L Hx)).
  assert (C : Forall (fun it => comparable e it) embs).
  { apply Forall_forall. intros x Hx. right. right. destruct (P19_Load.C54_valid pf r embs x L Hx) as (_ & _ & _ & Dx & _). destruct (P19_Load.C54_valid pf r embs e L He) as (_ & _ & _ & De & _).
    pose proof (proj1 (proj1 (P20_Search.C62_new embs)) N e x He Hx). lia. }
  rewrite (C99_item pf r embs e (k + 1) L He).
  assert (E : search_internal embs (e_word e) k = search embs e k [e_word e]).
  { destruct (in_split _ _ He) as (pre & post & ->). apply P20_Search.C60_found; auto.
    - apply (P19_Load.C54_valid pf r _ e L He).
    - rewrite map_app in ND. cbn [map] in ND. apply NoDup_remove_2 in ND. intros H. apply ND. apply in_or_app. auto. }
  rewrite E. exact (SearchMore.search_without embs e (e_word e) k Hk W ND C NT).
Qed.
Print Assumptions C99_internal.

Example C99_case :
  let text := bs ("a 1 0" ++ P19_Load.nl ++ "b 0.5 1" ++ P19_Load.nl ++ "c 2 1" ++ P19_Load.nl) in
  match load parse_float (file_of text) with
  | Ret es =>
      let words r := match r with Ret ns => map (fun n => string_of_list_byte (n_word n)) ns | _ => ["panic"%string] end in
      length es = 3%nat /\
      words (search_vector es [f_of_Z 1; f_of_Z 0] 3) = ["a"; "c"; "b"]%string /\ words (search_internal es (bs "a") 2) = ["c"; "b"]%string /\
      words (search_vector es [f_of_Z 1] 2) = ["a"; "c"]%string /\
      words (search_vector es [f_of_Z 1; f_of_Z 0; f_of_Z 0] 2) = ["panic"]%string /\
      words (search_vector es [] 3) = [""; ""]%string
  | _ => False end.
Proof. vm_compute. repeat split. Qed.

(** C100. Asking for more neighbours only adds rows after those returned for fewer. *)
Theorem C100_more_neighbours : forall items q k k' ign, 1 <= k <= k' -> Forall (fun it => e_word it <> []) items ->
  Forall (fun it => In (e_word it) ign \/ comparable q it) items ->
  exists rows rows', search items q k ign = Ret rows /\ search items q k' ign = Ret rows' /\
    filled rows = firstn (Z.to_nat k) (filled rows').
Proof. exact SearchMore.search_prefix. Qed.
Print Assumptions C100_more_neighbours.

(** C100. Without ties the answer does not depend on the order of the items ... *)
Theorem C100_item_order : forall items items' q k ign, 1 <= k -> Permutation items items' -> Forall (fun it => e_word it <> []) items ->
  no_ties items q ign -> search items q k ign = search items' q k ign.
Proof. exact SearchMore.search_order. Qed.
Print Assumptions C100_item_order.

(** ... with ties it does, and the item that comes first in the file can be the one left out: "a" and "b"
    have the same vector, "c" is better, and of the two the second is returned. *)
Theorem C100_ties : exists a b c q,
  let word_of rows := match rows with Ret ns => map n_word ns | _ => [] end in
  e_vec a = e_vec b /\ e_norm a = e_norm b /\ Forall (fun it => comparable q it) [a; b; c] /\ NoDup (map e_word [a; b; c]) /\
  word_of (search [a; b; c] q 2 []) = [e_word c; e_word b] /\
  word_of (search [b; a; c] q 2 []) = [e_word c; e_word a] /\
  word_of (search [c; a; b] q 2 []) = [e_word c; e_word a].
Proof.
  pose (it w x y := Emb (bs w) 2 [f_of_Z x; f_of_Z y] (norm [f_of_Z x; f_of_Z y])).
  exists (it "a" 1 0)%string, (it "b" 1 0)%string, (it "c" 1 1)%string, (Emb [] 2 [f_of_Z 1; f_of_Z 1] (norm [f_of_Z 1; f_of_Z 1])). cbv zeta.
  split; [reflexivity|]. split; [reflexivity|]. split; [repeat constructor; right; right; exact (le_n 2)|].
  split; [|split; [|split]; vm_compute; reflexivity]. repeat constructor; cbn; intuition discriminate.
Qed.
Print Assumptions C100_ties.

Example C100_case :
  let it w x y := Emb (bs w) 2 [f_of_Z x; f_of_Z y] (norm [f_of_Z x; f_of_Z y]) in
  let items := [it "a" 1 0; it "b" 1 2; it "c" 1 1]%string in let q := it "q"%string 1 1 in
  let words r := match r with Ret ns => map (fun n => string_of_list_byte (n_word n)) ns | _ => ["panic"%string] end in
  map (fun k => words (search items q k [])) [1; 2; 3] = [["c"]; ["c"; "b"]; ["c"; "b"; "a"]]%string /\
  forallb (fun c => forallb (fun d => negb (feq (snd c) (snd d)) || gseqb (fst c) (fst d)) (candidates items q [])) (candidates items q []) = true.
Proof. vm_compute. repeat split. Qed.
