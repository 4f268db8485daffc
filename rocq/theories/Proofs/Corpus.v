(** * Corpora: loading, filters, co-occurrence, batches *)
From Coq Require Import Reals.
From Verif.Lib Require Import Go ListFacts F64 F64Facts Tac.
From Verif.Spec Require Import Words Tokens Window Pairs Filter.
From Verif.Model Require Import Dictionary Encode Cooc Reader Corpus.
From Verif.Proofs Require Import Dictionary Tokens Reader Cooc.
Local Open Scope nat_scope.

(** ** Ids *)

Lemma position_index w l : In w l -> index_of w l = Some (position w l).
Proof.
  induction l as [|v l IH]; simpl; [tauto|]. intros [->|H].
  - destruct (gostring_eq_dec w w); congruence.
  - destruct (gostring_eq_dec w v); auto. rewrite IH; auto.
Qed.

Lemma dict_id_word_id ws d w : dict_repr ws d -> In w ws -> dict_id d w = (word_id ws w, true).
Proof.
  intros R H. unfold dict_id. rewrite (repr_map _ _ R), position_index; [reflexivity|now apply In_distinct].
Qed.

Lemma distinct_app a b : exists c, distinct (a ++ b) = distinct a ++ c.
Proof.
  induction b as [|x b [c IH]] using rev_ind.
  - exists []. now rewrite !app_nil_r.
  - rewrite app_assoc, distinct_snoc. destruct (in_dec gostring_eq_dec x (a ++ b)).
    + now exists c.
    + exists (c ++ [x]). rewrite IH. now rewrite app_assoc.
Qed.

Lemma position_app w a b : In w a -> position w (a ++ b) = position w a.
Proof.
  induction a as [|v a IH]; simpl; [tauto|]. intros [->|H].
  - destruct (gostring_eq_dec w w); congruence.
  - destruct (gostring_eq_dec w v); auto.
Qed.

Lemma word_id_app w a b : In w a -> word_id (a ++ b) w = word_id a w.
Proof.
  intros H. unfold word_id. destruct (distinct_app a b) as [c ->].
  apply position_app. now apply In_distinct.
Qed.

Lemma position_nth w l : In w l -> nth_error l (position w l) = Some w.
Proof.
  induction l as [|v l IH]; simpl; [tauto|]. intros [->|H].
  - destruct (gostring_eq_dec w w); [reflexivity|congruence].
  - destruct (gostring_eq_dec w v) as [->|]; [reflexivity|]. simpl. auto.
Qed.

Lemma word_id_inj ws w1 w2 : In w1 ws -> In w2 ws -> word_id ws w1 = word_id ws w2 -> w1 = w2.
Proof.
  intros H1 H2 E. apply In_distinct in H1. apply In_distinct in H2.
  apply position_nth in H1. apply position_nth in H2. unfold word_id in E. rewrite E in H1. congruence.
Qed.

Lemma word_id_lt ws w : In w ws -> word_id ws w < length (distinct ws).
Proof.
  intros H. apply In_distinct in H. apply position_nth in H. apply nth_error_Some. unfold word_id. congruence.
Qed.

(** ** First pass of Load *)

Definition loaded (c : corpus) (lw : list gostring) (idoc : list nat) : corpus :=
  {| c_doc := c_doc c; c_dic := dict_add (c_dic c) lw; c_cooc := c_cooc c; c_len := c_len c + length lw;
     c_idoc := c_idoc c ++ idoc; c_lower := c_lower c; c_max := c_max c; c_min := c_min c |}.

Lemma mem_pass lower verbose lb : report verbose lb = Ret tt ->
  forall ws c hist, dict_repr hist (c_dic c) ->
  for_each (mem_load_word lower verbose lb) c ws =
  (loaded c (map (low lower c) ws) (map (word_id (hist ++ map (low lower c) ws)) (map (low lower c) ws)), Ret tt).
Proof.
  intros Hrep. induction ws as [|w ws IH]; intros c hist R.
  - simpl. unfold loaded. cbn [length]. rewrite Nat.add_0_r, app_nil_r. destruct c; reflexivity.
  - cbn [for_each map]. unfold mem_load_word at 1. cbv zeta.
    set (w' := low lower c w).
    assert (R' : dict_repr (hist ++ [w']) (dict_add (c_dic c) [w'])) by now apply dict_repr_add.
    rewrite (dict_id_word_id _ _ w' R') by (apply in_or_app; right; left; auto).
    rewrite Hrep. cbn iota beta.
    match goal with |- for_each _ ?c1 _ = _ => set (c1' := c1) end.
    rewrite (IH c1' (hist ++ [w']) R').
    assert (El : forall x, low lower c1' x = low lower c x) by reflexivity.
    assert (Em : map (low lower c1') ws = map (low lower c) ws) by (apply map_ext; auto).
    rewrite Em. unfold loaded, c1'. cbn [c_doc c_dic c_cooc c_len c_idoc c_lower c_max c_min].
    f_equal. f_equal.
    + cbn [length]. lia.
    + rewrite <- app_assoc. cbn [app]. f_equal. f_equal.
      * replace (hist ++ w' :: map (low lower c) ws) with ((hist ++ [w']) ++ map (low lower c) ws)
          by (rewrite <- app_assoc; reflexivity).
        symmetry. apply word_id_app. apply in_or_app. right. left. auto.
      * apply map_ext. intros. f_equal. rewrite <- app_assoc. reflexivity.
Qed.

Lemma fs_pass lower verbose lb : report verbose lb = Ret tt ->
  forall ws c, for_each (fs_load_word lower verbose lb) c ws = (loaded c (map (low lower c) ws) [], Ret tt).
Proof.
  intros Hrep. induction ws as [|w ws IH]; intros c.
  - simpl. unfold loaded. cbn [length]. rewrite Nat.add_0_r, app_nil_r. destruct c; reflexivity.
  - cbn [for_each map]. unfold fs_load_word at 1. cbv zeta. rewrite Hrep. cbn iota beta.
    rewrite IH. unfold loaded. cbn [c_doc c_dic c_cooc c_len c_idoc c_lower c_max c_min length].
    f_equal. f_equal. rewrite !map_length. lia.
Qed.

Definition fits (all : list gostring) : Prop := Forall (fun w => (Z.of_nat (length w) <= 65533)%Z) all.

Lemma read_word_fits {St} (fn : callback St gostring) s r all :
  tokens (rd_data r) all -> rd_err r = false -> fits all -> read_word r fn s = for_each fn s all.
Proof.
  intros Ht He Hf. unfold read_word. rewrite (scanner_fits r all Ht Hf), He.
  destruct (for_each fn s all) as [s' [[]|e|]]; auto.
Qed.

(** The state after the first pass of a fresh corpus. *)
Definition fresh_loaded lower doc lc maxc minc all (idoc : bool) : corpus :=
  let lw := map (fun w => if (lc : bool) then lower w else w) all in
  {| c_doc := doc; c_dic := dict_add dict_new lw; c_cooc := None; c_len := length all;
     c_idoc := if idoc then map (word_id lw) lw else [];
     c_lower := lc; c_max := maxc; c_min := minc |}.

Lemma mem_first lower verbose lb doc lc maxc minc all : report verbose lb = Ret tt ->
  tokens (rd_data doc) all -> rd_err doc = false -> fits all ->
  read_word doc (mem_load_word lower verbose lb) (corpus_new doc lc maxc minc) =
  (fresh_loaded lower doc lc maxc minc all true, Ret tt).
Proof.
  intros Hrep Ht He Hf. rewrite (read_word_fits _ _ _ _ Ht He Hf).
  rewrite (mem_pass lower verbose lb Hrep all (corpus_new doc lc maxc minc) [] dict_repr_new).
  unfold loaded, fresh_loaded, corpus_new, low. cbn [c_doc c_dic c_cooc c_len c_idoc c_lower c_max c_min app].
  rewrite map_length. reflexivity.
Qed.

Lemma fs_first lower verbose lb doc lc maxc minc all : report verbose lb = Ret tt ->
  tokens (rd_data doc) all -> rd_err doc = false -> fits all ->
  read_word doc (fs_load_word lower verbose lb) (corpus_new doc lc maxc minc) =
  (fresh_loaded lower doc lc maxc minc all false, Ret tt).
Proof.
  intros Hrep Ht He Hf. rewrite (read_word_fits _ _ _ _ Ht He Hf), fs_pass by auto.
  unfold loaded, fresh_loaded, corpus_new, low. cbn [c_doc c_dic c_cooc c_len c_idoc c_lower c_max c_min app].
  rewrite map_length. reflexivity.
Qed.

(** ** Co-occurrence pass *)

Lemma mem_inner_run verbose lb win idoc i : forall fuel j co, length idoc - j <= fuel ->
  mem_inner verbose lb fuel win idoc i j co =
  for_each (add_ids verbose lb) co
    (map (pair (nth i idoc 0)) (firstn (Z.to_nat (Z.of_nat i + win + 1 - Z.of_nat j)) (skipn j idoc))).
Proof.
  induction fuel as [|fuel IH]; intros j co Hf.
  - rewrite (skipn_all2 idoc) by lia. now rewrite firstn_nil.
  - cbn [mem_inner]. destruct (Nat.ltb_spec j (length idoc)) as [Hj|Hj]; cbn [andb].
    + assert (Esk : skipn j idoc = nth j idoc 0 :: skipn (S j) idoc).
      { clear -Hj. revert j Hj. induction idoc as [|x l IH]; intros [|j] Hj; simpl in *; try lia; auto.
        apply IH. lia. }
      rewrite Esk.
      destruct (Z.leb_spec (Z.of_nat j) (Z.of_nat i + win)) as [Hw|Hw].
      * replace (Z.to_nat (Z.of_nat i + win + 1 - Z.of_nat j))
          with (S (Z.to_nat (Z.of_nat i + win + 1 - Z.of_nat (S j)))) by lia.
        cbn [firstn map for_each].
        destruct (add_ids verbose lb co _) as [co' [u|e|]]; auto. apply IH. lia.
      * replace (Z.to_nat (Z.of_nat i + win + 1 - Z.of_nat j)) with 0 by lia. reflexivity.
    + rewrite (skipn_all2 idoc) by lia. now rewrite firstn_nil.
Qed.

Lemma mem_outer_run verbose lb win idoc co :
  mem_outer verbose lb win idoc co =
  for_each (add_ids verbose lb) co (window_pairs (Z.to_nat win) idoc).
Proof.
  unfold mem_outer.
  assert (G : forall suf pre co, pre ++ suf = idoc ->
     for_each (fun co i => mem_inner verbose lb (length idoc) win idoc i (S i) co) co (seq (length pre) (length suf)) =
     for_each (add_ids verbose lb) co (window_pairs (Z.to_nat win) suf)).
  { induction suf as [|x suf IH]; intros pre co0 E; [reflexivity|].
    cbn [length seq for_each window_pairs]. rewrite for_each_app.
    rewrite mem_inner_run by lia.
    replace (Z.of_nat (length pre) + win + 1 - Z.of_nat (S (length pre)))%Z with win by lia.
    assert (E1 : nth (length pre) idoc 0 = x) by (rewrite <- E, app_nth2, Nat.sub_diag by lia; reflexivity).
    assert (E2 : skipn (S (length pre)) idoc = suf).
    { rewrite <- E. replace (pre ++ x :: suf) with ((pre ++ [x]) ++ suf) by (rewrite <- app_assoc; reflexivity).
      replace (S (length pre)) with (length (pre ++ [x])) by (rewrite app_length; simpl; lia).
      now rewrite skipn_app, skipn_all, Nat.sub_diag. }
    rewrite E1, E2.
    destruct (for_each (add_ids verbose lb) co0 _) as [co' [u|e|]]; auto.
    specialize (IH (pre ++ [x]) co'). rewrite app_length in IH. cbn [length] in IH.
    rewrite Nat.add_1_r in IH. apply IH. rewrite <- app_assoc. exact E. }
  apply (G idoc []). reflexivity.
Qed.

Lemma window_pairs_map {A B} (f : A -> B) n l :
  window_pairs n (map f l) = map (fun p => (f (fst p), f (snd p))) (window_pairs n l).
Proof.
  induction l as [|x l IH]; simpl; auto. rewrite map_app, IH. f_equal.
  rewrite firstn_map, !map_map. reflexivity.
Qed.

Lemma In_window n {A} (l : list A) p : In p (window_pairs n l) -> In (fst p) l /\ In (snd p) l.
Proof.
  induction l as [|x l IH]; simpl; [tauto|]. rewrite in_app_iff, in_map_iff.
  intros [(y & <- & Hy)|H].
  - simpl. split; auto. right. rewrite <- (firstn_skipn n l). apply in_or_app. auto.
  - apply IH in H. tauto.
Qed.

Lemma add_ids_report verbose lb co l : report verbose lb = Ret tt ->
  for_each (add_ids verbose lb) co l =
  for_each (fun c p => co_add c (fst p) (snd p)) co (map (fun p => (Z.of_nat (fst p), Z.of_nat (snd p))) l).
Proof.
  intros Hr. revert co; induction l as [|p l IH]; intros co; simpl; auto.
  unfold add_ids at 1. destruct (co_add co _ _) as [co' [u|e|]]; auto. now rewrite Hr.
Qed.

Lemma mem_load_run lower verbose lb doc lc maxc minc all typ win co : report verbose lb = Ret tt ->
  tokens (rd_data doc) all -> rd_err doc = false -> fits all -> co_new typ = Ret co ->
  let lw := map (fun w => if (lc : bool) then lower w else w) all in
  mem_load lower verbose lb (corpus_new doc lc maxc minc) (Some {| w_type := typ; w_window := win |}) =
  let (co', o) := for_each (fun c p => co_add c (fst p) (snd p)) co
     (map (fun p => (Z.of_nat (word_id lw (fst p)), Z.of_nat (word_id lw (snd p)))) (window_pairs (Z.to_nat win) lw)) in
  (set_cooc (fresh_loaded lower doc lc maxc minc all true) (Some co'), o).
Proof.
  intros Hr Ht He Hf Hco lw. unfold mem_load. cbn [c_doc corpus_new].
  rewrite (mem_first _ _ _ _ _ _ _ _ Hr Ht He Hf). cbn [w_type w_window]. rewrite Hco.
  rewrite mem_outer_run, add_ids_report by auto. unfold fresh_loaded at 1. cbn [c_idoc].
  fold lw. rewrite window_pairs_map, map_map. reflexivity.
Qed.

(** Counting unordered pairs is invariant under an injective renaming. *)
Lemma pair_count_map (f : gostring -> Z) a b l :
  (forall x y, In x (a :: b :: map fst l ++ map snd l) -> In y (a :: b :: map fst l ++ map snd l) -> f x = f y -> x = y) ->
  pair_count Z.eq_dec (f a) (f b) (map (fun p => (f (fst p), f (snd p))) l) = pair_count gostring_eq_dec a b l.
Proof.
  intros Hinj. unfold pair_count.
  assert (G : forall l', incl l' l ->
    length (filter (same_pair Z.eq_dec (f a, f b)) (map (fun p => (f (fst p), f (snd p))) l')) =
    length (filter (same_pair gostring_eq_dec (a, b)) l')).
  { induction l' as [|[c d] l' IH]; intros Hi; [reflexivity|].
    assert (Hc : In c (a :: b :: map fst l ++ map snd l)).
    { right; right. apply in_or_app. left. change c with (fst (c, d)). apply in_map. apply Hi. left. auto. }
    assert (Hd : In d (a :: b :: map fst l ++ map snd l)).
    { right; right. apply in_or_app. right. change d with (snd (c, d)). apply in_map. apply Hi. left. auto. }
    assert (Ha : In a (a :: b :: map fst l ++ map snd l)) by (left; auto).
    assert (Hb : In b (a :: b :: map fst l ++ map snd l)) by (right; left; auto).
    assert (E : same_pair Z.eq_dec (f a, f b) (f c, f d) = same_pair gostring_eq_dec (a, b) (c, d)).
    { unfold same_pair.
      destruct (Z.eq_dec (f a) (f c)), (Z.eq_dec (f b) (f d)), (Z.eq_dec (f a) (f d)), (Z.eq_dec (f b) (f c)),
        (gostring_eq_dec a c), (gostring_eq_dec b d), (gostring_eq_dec a d), (gostring_eq_dec b c);
        subst; try congruence; try reflexivity;
        exfalso; match goal with H : ?x <> ?y |- _ => apply H; now apply Hinj end. }
    cbn [map filter fst snd]. rewrite E.
    destruct (same_pair gostring_eq_dec (a, b) (c, d)); cbn [length]; rewrite IH; auto;
      intros x Hx; apply Hi; right; auto. }
  apply G. apply incl_refl.
Qed.

Lemma report_ok verbose lb : verbose = false \/ lb <> 0%Z -> report verbose lb = Ret tt.
Proof.
  unfold report. destruct verbose; auto. intros [|H]; [discriminate|].
  destruct (Z.eqb_spec lb 0); congruence.
Qed.

(** Adding the ids of word pairs counts the word pairs. *)
Lemma word_pairs_counts lw pairs : (Z.of_nat (length (distinct lw)) <= 2 ^ 32)%Z ->
  (forall p, In p pairs -> In (fst p) lw /\ In (snd p) lw) ->
  exists co', for_each (fun c p => co_add c (fst p) (snd p)) {| co_typ := "inc"; co_ma := [] |}
      (map (fun p => (Z.of_nat (word_id lw (fst p)), Z.of_nat (word_id lw (snd p)))) pairs) = (co', Ret tt) /\
    (forall w1 w2, In w1 lw -> In w2 lw ->
       let key := encode_bigram (Z.of_nat (word_id lw w1)) (Z.of_nat (word_id lw w2)) in
       match pair_count gostring_eq_dec w1 w2 pairs with
       | O => mget Z.eq_dec key (co_ma co') = None
       | n => exists v, mget Z.eq_dec key (co_ma co') = Some v /\
                        is_fin v = true /\ f2r v = IZR (Z.min (Z.of_nat n) (2 ^ 53))
       end) /\
    (forall k v, In (k, v) (co_ma co') -> exists w1 w2, In (w1, w2) pairs /\
       k = encode_bigram (Z.of_nat (word_id lw w1)) (Z.of_nat (word_id lw w2))) /\
    NoDup (map fst (co_ma co')).
Proof.
  intros Hv Hp.
  assert (H32 : forall w, In w lw -> in32 (Z.of_nat (word_id lw w))).
  { intros w Hw. apply word_id_lt in Hw. unfold in32. lia. }
  set (f := fun w => Z.of_nat (word_id lw w)).
  destruct (inc_counts_lemma (map (fun p => (f (fst p), f (snd p))) pairs)) as (c0 & c & H1 & H2 & H3 & H4 & H5).
  { apply Forall_forall. intros q Hq. apply in_map_iff in Hq as (p & <- & Hin).
    apply Hp in Hin. simpl. split; apply H32; tauto. }
  vm_compute in H1. inversion H1; subst c0. exists c. split; [exact H2|].
  split; [|split; [|exact H5]].
  - intros w1 w2 Hw1 Hw2. cbv zeta.
    specialize (H3 (f w1) (f w2) (H32 w1 Hw1) (H32 w2 Hw2)).
    rewrite (pair_count_map f w1 w2 pairs) in H3; [exact H3|].
    assert (Hin : forall x, In x (w1 :: w2 :: map fst pairs ++ map snd pairs) -> In x lw).
    { intros x [<-|[<-|Hx]]; auto. apply in_app_or in Hx as [Hx|Hx]; apply in_map_iff in Hx as (p & <- & Hx);
        apply Hp in Hx; tauto. }
    intros x y Hx Hy E. apply (word_id_inj lw); auto. unfold f in E. lia.
  - intros k v Hin. apply H4 in Hin as (q & Hq & ->). apply in_map_iff in Hq as ((w1 & w2) & <- & Hq).
    exists w1, w2. auto.
Qed.

Definition lowered (lower : gostring -> gostring) (lc : bool) (all : list gostring) : list gostring :=
  if lc then map lower all else all.

Lemma lowered_eq lower (lc : bool) all : map (fun w => if lc then lower w else w) all = lowered lower lc all.
Proof. destruct lc; [reflexivity|apply map_id]. Qed.

Lemma mem_cooc_lemma lower verbose lb doc lc maxc minc all win :
  verbose = false \/ lb <> 0%Z -> tokens (rd_data doc) all -> rd_err doc = false -> fits all ->
  let lw := lowered lower lc all in
  (Z.of_nat (length (distinct lw)) <= 2 ^ 32)%Z ->
  exists c co, mem_load lower verbose lb (corpus_new doc lc maxc minc)
                 (Some {| w_type := "inc"; w_window := win |}) = (c, Ret tt) /\
    c_cooc c = Some co /\
    (forall w1 w2, In w1 lw -> In w2 lw ->
       let key := encode_bigram (Z.of_nat (fst (dict_id (c_dic c) w1))) (Z.of_nat (fst (dict_id (c_dic c) w2))) in
       match pair_count gostring_eq_dec w1 w2 (window_pairs (Z.to_nat win) lw) with
       | O => mget Z.eq_dec key (co_ma co) = None
       | n => exists v, mget Z.eq_dec key (co_ma co) = Some v /\
                        is_fin v = true /\ f2r v = IZR (Z.min (Z.of_nat n) (2 ^ 53))
       end) /\
    (forall k v, In (k, v) (co_ma co) -> exists w1 w2, In (w1, w2) (window_pairs (Z.to_nat win) lw) /\
       k = encode_bigram (Z.of_nat (fst (dict_id (c_dic c) w1))) (Z.of_nat (fst (dict_id (c_dic c) w2)))) /\
    NoDup (map fst (co_ma co)).
Proof.
  intros Hr Ht He Hf lw Hv. apply report_ok in Hr.
  pose proof (mem_load_run lower verbose lb doc lc maxc minc all "inc" win {| co_typ := "inc"; co_ma := [] |}
    Hr Ht He Hf eq_refl) as H.
  cbv zeta in H. rewrite lowered_eq in H. fold lw in H.
  destruct (word_pairs_counts lw (window_pairs (Z.to_nat win) lw) Hv) as (co & R1 & R2 & R3 & R4).
  { intros p Hp. now apply In_window in Hp. }
  rewrite R1 in H. eexists. exists co. split; [exact H|]. split; [reflexivity|].
  cbn [set_cooc c_dic fresh_loaded]. rewrite lowered_eq. fold lw.
  assert (R : dict_repr lw (dict_add dict_new lw)) by apply dict_repr_of.
  split; [|split; [|exact R4]].
  - intros w1 w2 Hw1 Hw2. rewrite (dict_id_word_id lw _ w1 R Hw1), (dict_id_word_id lw _ w2 R Hw2).
    cbn [fst]. now apply R2.
  - intros k v Hin. apply R3 in Hin as (w1 & w2 & Hin & ->). exists w1, w2. split; auto.
    apply In_window in Hin. cbn [fst snd] in Hin. destruct Hin as [Hw1 Hw2].
    rewrite (dict_id_word_id lw _ w1 R Hw1), (dict_id_word_id lw _ w2 R Hw2). reflexivity.
Qed.

(** ** File-backed co-occurrence *)

(** The id of a word as the second pass of fs.Load sees it: 0 when it is unknown. *)
Definition raw_id (lw : list gostring) (w : gostring) : nat :=
  if in_dec gostring_eq_dec w lw then word_id lw w else 0.

Lemma dict_id_raw lw d w : dict_repr lw d -> fst (dict_id d w) = raw_id lw w.
Proof.
  intros R. unfold raw_id. destruct (in_dec gostring_eq_dec w lw) as [H|H].
  - now rewrite (dict_id_word_id lw d w R H).
  - now rewrite (repr_id_notin lw d R w H).
Qed.

Lemma fs_pairs_run verbose lb d lw l co : report verbose lb = Ret tt -> dict_repr lw d ->
  for_each (fs_pair verbose lb d) co l =
  for_each (fun c p => co_add c (fst p) (snd p)) co
    (map (fun p => (Z.of_nat (raw_id lw (fst p)), Z.of_nat (raw_id lw (snd p)))) l).
Proof.
  intros Hr R. revert co; induction l as [|[a b] l IH]; intros co; [reflexivity|].
  cbn [for_each map fst snd]. unfold fs_pair at 1. cbn [fst snd].
  pose proof (dict_id_raw lw d a R) as Ea. pose proof (dict_id_raw lw d b R) as Eb.
  destruct (dict_id d a) as [ia oa], (dict_id d b) as [ib ob]. cbn [fst] in Ea, Eb. subst ia ib.
  unfold add_ids. cbn [fst snd]. destruct (co_add co _ _) as [co' [u|e|]]; auto. rewrite Hr. apply IH.
Qed.

Lemma fs_load_run lower verbose lb doc lc maxc minc all typ n co : report verbose lb = Ret tt ->
  tokens (rd_data doc) all -> rd_err doc = false -> fits all -> co_new typ = Ret co -> 1 <= n ->
  let lw := lowered lower lc all in
  fs_load lower verbose lb (corpus_new doc lc maxc minc) (Some {| w_type := typ; w_window := Z.of_nat n |}) =
  let (co', o) := for_each (fun c p => co_add c (fst p) (snd p)) co
     (map (fun p => (Z.of_nat (raw_id lw (fst p)), Z.of_nat (raw_id lw (snd p)))) (fc_emitted n all)) in
  (set_cooc (fresh_loaded lower doc lc maxc minc all false) (Some co'), o).
Proof.
  intros Hr Ht He Hf Hco Hn lw. unfold fs_load. cbn [c_doc corpus_new].
  rewrite (fs_first _ _ _ _ _ _ _ _ Hr Ht He Hf). cbn [w_type w_window]. rewrite Hco.
  cbn [c_doc c_dic fresh_loaded]. rewrite lowered_eq. fold lw.
  rewrite (forward_context_lemma _ _ _ doc n all Ht He Hf Hn).
  rewrite (fs_pairs_run verbose lb _ lw _ _ Hr (dict_repr_of lw)). reflexivity.
Qed.

Lemma In_window_upto k n {A} (l : list A) p : In p (window_pairs_upto k n l) -> In (fst p) l /\ In (snd p) l.
Proof.
  intros H. apply (In_window n). rewrite (window_upto_split k n l). apply in_or_app. auto.
Qed.

Lemma raw_word_pairs lw pairs : (forall p, In p pairs -> In (fst p) lw /\ In (snd p) lw) ->
  map (fun p => (Z.of_nat (raw_id lw (fst p)), Z.of_nat (raw_id lw (snd p)))) pairs =
  map (fun p => (Z.of_nat (word_id lw (fst p)), Z.of_nat (word_id lw (snd p)))) pairs.
Proof.
  intros H. apply map_ext_in. intros p Hp. apply H in Hp as [H1 H2]. unfold raw_id.
  destruct (in_dec _ (fst p) lw); [|contradiction]. destruct (in_dec _ (snd p) lw); [|contradiction]. reflexivity.
Qed.

Lemma fc_emitted_long n all : 1 <= n < length all ->
  fc_emitted n all = window_pairs_upto (length all - n + 1) n all.
Proof.
  intros H. unfold fc_emitted. destruct all as [|w t]; [simpl in H; lia|].
  destruct (Nat.ltb_spec n (length (w :: t))); [reflexivity|lia].
Qed.

Lemma fs_agrees_lemma lower verbose lb doc maxc minc all typ n co0 :
  verbose = false \/ lb <> 0%Z -> tokens (rd_data doc) all -> rd_err doc = false -> fits all ->
  co_new typ = Ret co0 -> 1 <= n <= 2 -> n < length all ->
  let w := Some {| w_type := typ; w_window := Z.of_nat n |} in
  let (cf, of) := fs_load lower verbose lb (corpus_new doc false maxc minc) w in
  let (cm, om) := mem_load lower verbose lb (corpus_new doc false maxc minc) w in
  c_cooc cf = c_cooc cm /\ of = om /\ c_dic cf = c_dic cm /\ c_len cf = c_len cm.
Proof.
  intros Hr Ht He Hf Hco Hn Hl. cbv zeta. apply report_ok in Hr.
  rewrite (fs_load_run lower verbose lb doc false maxc minc all typ n co0 Hr Ht He Hf Hco) by lia.
  rewrite (mem_load_run lower verbose lb doc false maxc minc all typ (Z.of_nat n) co0 Hr Ht He Hf Hco).
  cbv zeta. rewrite (lowered_eq lower false all). cbn [lowered]. rewrite Nat2Z.id.
  rewrite fc_emitted_long by lia. rewrite window_all by lia.
  rewrite raw_word_pairs by (intros p Hp; now apply In_window in Hp).
  destruct (for_each _ co0 _) as [co' o]. auto.
Qed.

Lemma fs_cooc_lemma lower verbose lb doc maxc minc all n :
  verbose = false \/ lb <> 0%Z -> tokens (rd_data doc) all -> rd_err doc = false -> fits all ->
  1 <= n < length all -> (Z.of_nat (length (distinct all)) <= 2 ^ 32)%Z ->
  exists c co, fs_load lower verbose lb (corpus_new doc false maxc minc)
                 (Some {| w_type := "inc"; w_window := Z.of_nat n |}) = (c, Ret tt) /\
    c_cooc c = Some co /\
    (forall w1 w2, In w1 all -> In w2 all ->
       let key := encode_bigram (Z.of_nat (fst (dict_id (c_dic c) w1))) (Z.of_nat (fst (dict_id (c_dic c) w2))) in
       match pair_count gostring_eq_dec w1 w2 (window_pairs_upto (length all - n + 1) n all) with
       | O => mget Z.eq_dec key (co_ma co) = None
       | n => exists v, mget Z.eq_dec key (co_ma co) = Some v /\
                        is_fin v = true /\ f2r v = IZR (Z.min (Z.of_nat n) (2 ^ 53))
       end).
Proof.
  intros Hr Ht He Hf Hn Hv. apply report_ok in Hr.
  pose proof (fs_load_run lower verbose lb doc false maxc minc all "inc" n {| co_typ := "inc"; co_ma := [] |}
    Hr Ht He Hf eq_refl ltac:(lia)) as H.
  cbv zeta in H. cbn [lowered] in H. rewrite fc_emitted_long in H by lia.
  rewrite raw_word_pairs in H by (intros p Hp; now apply In_window_upto in Hp).
  destruct (word_pairs_counts all (window_pairs_upto (length all - n + 1) n all) Hv) as (co & R1 & R2 & R3 & R4).
  { intros p Hp. now apply In_window_upto in Hp. }
  rewrite R1 in H. eexists. exists co. split; [exact H|]. split; [reflexivity|].
  cbn [set_cooc c_dic fresh_loaded]. rewrite map_id.
  assert (R : dict_repr all (dict_add dict_new all)) by apply dict_repr_of.
  intros w1 w2 Hw1 Hw2. rewrite (dict_id_word_id all _ w1 R Hw1), (dict_id_word_id all _ w2 R Hw2).
  cbn [fst]. now apply R2.
Qed.

Lemma pair_count_app {A} eqd (a b : A) l1 l2 :
  pair_count eqd a b (l1 ++ l2) = pair_count eqd a b l1 + pair_count eqd a b l2.
Proof. unfold pair_count. now rewrite filter_app, app_length. Qed.

Lemma pair_count_In {A} (eqd : forall x y : A, {x = y} + {x <> y}) a b l : In (a, b) l -> 1 <= pair_count eqd a b l.
Proof.
  intros H. unfold pair_count.
  assert (Hin : In (a, b) (filter (same_pair eqd (a, b)) l)).
  { apply filter_In. split; auto. simpl. destruct (eqd a a), (eqd b b); auto; congruence. }
  destruct (filter _ l); [contradiction|simpl; lia].
Qed.

(** With a window of 3 or more, the last two words of the text are counted less often. *)
Lemma fs_loses_lemma lower verbose lb doc maxc minc pre x y n :
  let all := pre ++ [x; y] in
  verbose = false \/ lb <> 0%Z -> tokens (rd_data doc) all -> rd_err doc = false -> fits all ->
  3 <= n < length all -> (Z.of_nat (length (distinct all)) <= 2 ^ 32)%Z ->
  (Z.of_nat (pair_count gostring_eq_dec x y (window_pairs n all)) <= 2 ^ 53)%Z ->
  let w := Some {| w_type := "inc"; w_window := Z.of_nat n |} in
  exists cf cof cm com v,
    fs_load lower verbose lb (corpus_new doc false maxc minc) w = (cf, Ret tt) /\ c_cooc cf = Some cof /\
    mem_load lower verbose lb (corpus_new doc false maxc minc) w = (cm, Ret tt) /\ c_cooc cm = Some com /\
    let key := encode_bigram (Z.of_nat (fst (dict_id (c_dic cm) x))) (Z.of_nat (fst (dict_id (c_dic cm) y))) in
    mget Z.eq_dec key (co_ma com) = Some v /\
    (mget Z.eq_dec key (co_ma cof) = None \/
     exists v', mget Z.eq_dec key (co_ma cof) = Some v' /\ (f2r v' < f2r v)%R).
Proof.
  intros all Hr Ht He Hf Hn Hv Hc w.
  destruct (fs_cooc_lemma lower verbose lb doc maxc minc all n Hr Ht He Hf ltac:(lia) Hv) as (cf & cof & F1 & F2 & F3).
  destruct (mem_cooc_lemma lower verbose lb doc false maxc minc all (Z.of_nat n) Hr Ht He Hf Hv)
    as (cm & com & M1 & M2 & M3 & _).
  cbn [lowered] in M3.
  assert (Hx : In x all) by (apply in_or_app; right; left; auto).
  assert (Hy : In y all) by (apply in_or_app; right; right; left; auto).
  assert (Ed : c_dic cf = c_dic cm).
  { apply report_ok in Hr.
    pose proof (fs_load_run lower verbose lb doc false maxc minc all "inc" n _ Hr Ht He Hf eq_refl ltac:(lia)) as A.
    pose proof (mem_load_run lower verbose lb doc false maxc minc all "inc" (Z.of_nat n) _ Hr Ht He Hf eq_refl) as B.
    cbv zeta in A, B. rewrite F1 in A. rewrite M1 in B.
    destruct (for_each _ _ _) as [? ?] in A. destruct (for_each _ _ _) as [? ?] in B.
    inversion A. inversion B. subst cf cm. reflexivity. }
  specialize (F3 x y Hx Hy). specialize (M3 x y Hx Hy). cbv zeta in *. rewrite Ed in F3.
  rewrite Nat2Z.id in M3.
  set (key := encode_bigram _ _) in *.
  assert (Hsum : pair_count gostring_eq_dec x y (window_pairs n all) =
     pair_count gostring_eq_dec x y (window_pairs_upto (length all - n + 1) n all) +
     pair_count gostring_eq_dec x y (window_pairs n (skipn (length all - n + 1) all))).
  { rewrite (window_upto_split (length all - n + 1) n all) at 1. apply pair_count_app. }
  assert (Hlost : 1 <= pair_count gostring_eq_dec x y (window_pairs n (skipn (length all - n + 1) all))).
  { apply pair_count_In. unfold all in *. rewrite app_length in *. cbn [length] in *.
    rewrite skipn_app.
    replace (length pre + 2 - n + 1 - length pre) with 0 by lia. cbn [skipn].
    generalize (skipn (length pre + 2 - n + 1) pre). intros l.
    induction l as [|z l IH]; cbn [app window_pairs].
    - destruct n; [lia|]. simpl. auto.
    - apply in_or_app. auto. }
  destruct (pair_count gostring_eq_dec x y (window_pairs n all)) as [|m] eqn:Em; [lia|].
  destruct M3 as (v & Mv & Fv & Rv).
  exists cf, cof, cm, com, v. repeat (split; [assumption|]).
  destruct (pair_count gostring_eq_dec x y (window_pairs_upto _ n all)) as [|k] eqn:Ek.
  - left. exact F3.
  - right. destruct F3 as (v' & Mv' & Fv' & Rv'). exists v'. split; auto.
    rewrite Rv, Rv'. apply IZR_lt. lia.
Qed.

(** ** Load, filters, indexed document *)

Lemma mem_load_state lower verbose lb doc lc maxc minc all w : report verbose lb = Ret tt ->
  tokens (rd_data doc) all -> rd_err doc = false -> fits all ->
  exists o, fst (mem_load lower verbose lb (corpus_new doc lc maxc minc) w) =
            set_cooc (fresh_loaded lower doc lc maxc minc all true) o /\
            (w = None -> snd (mem_load lower verbose lb (corpus_new doc lc maxc minc) w) = Ret tt).
Proof.
  intros Hr Ht He Hf. unfold mem_load. cbn [c_doc corpus_new].
  rewrite (mem_first _ _ _ _ _ _ _ _ Hr Ht He Hf). destruct w as [w|].
  - destruct (co_new (w_type w)) as [co|e|]; [| |].
    + destruct (mem_outer _ _ _ _ co) as [co' o]. exists (Some co'). split; [reflexivity|discriminate].
    + exists None. split; [reflexivity|discriminate].
    + exists None. split; [reflexivity|discriminate].
  - exists None. split; reflexivity.
Qed.

Lemma fs_load_state lower verbose lb doc lc maxc minc all w : report verbose lb = Ret tt ->
  tokens (rd_data doc) all -> rd_err doc = false -> fits all ->
  exists o, fst (fs_load lower verbose lb (corpus_new doc lc maxc minc) w) =
            set_cooc (fresh_loaded lower doc lc maxc minc all false) o /\
            (w = None -> snd (fs_load lower verbose lb (corpus_new doc lc maxc minc) w) = Ret tt).
Proof.
  intros Hr Ht He Hf. unfold fs_load. cbn [c_doc corpus_new].
  rewrite (fs_first _ _ _ _ _ _ _ _ Hr Ht He Hf). destruct w as [w|].
  - destruct (co_new (w_type w)) as [co|e|]; [| |].
    + destruct (read_word_with_forward_context _ _ _ co) as [co' o]. exists (Some co'). split; [reflexivity|discriminate].
    + exists None. split; [reflexivity|discriminate].
    + exists None. split; [reflexivity|discriminate].
  - exists None. split; reflexivity.
Qed.

Lemma load_lemma lower verbose lb doc lc maxc minc all w :
  verbose = false \/ lb <> 0%Z -> tokens (rd_data doc) all -> rd_err doc = false -> fits all ->
  let lw := lowered lower lc all in
  let (cm, om) := mem_load lower verbose lb (corpus_new doc lc maxc minc) w in
  let (cf, of) := fs_load lower verbose lb (corpus_new doc lc maxc minc) w in
  c_len cm = length all /\ c_dic cm = dict_add dict_new lw /\
  c_len cf = length all /\ c_dic cf = dict_add dict_new lw /\
  (w = None -> om = Ret tt /\ of = Ret tt).
Proof.
  intros Hr Ht He Hf lw. apply report_ok in Hr.
  destruct (mem_load_state lower verbose lb doc lc maxc minc all w Hr Ht He Hf) as (o1 & M1 & M2).
  destruct (fs_load_state lower verbose lb doc lc maxc minc all w Hr Ht He Hf) as (o2 & F1 & F2).
  destruct (mem_load lower verbose lb _ w) as [cm om], (fs_load lower verbose lb _ w) as [cf of].
  cbn [fst snd] in *. subst cm cf. unfold set_cooc, fresh_loaded. cbn [c_len c_dic].
  rewrite lowered_eq. fold lw. repeat split; auto.
Qed.

Lemma load_fails_lemma lower verbose lb doc lc maxc minc all w :
  verbose = false \/ lb <> 0%Z -> tokens (rd_data doc) all ->
  (rd_err doc = true \/ exists x, In x all /\ (65536 <= Z.of_nat (length x))%Z) ->
  (exists e, snd (mem_load lower verbose lb (corpus_new doc lc maxc minc) w) = Err e) /\
  (exists e, snd (fs_load lower verbose lb (corpus_new doc lc maxc minc) w) = Err e).
Proof.
  intros Hr Ht Hbad. apply report_ok in Hr.
  assert (G : forall (fn : callback corpus gostring) c, (forall ws c, snd (for_each fn c ws) = Ret tt) ->
     exists c' e, read_word doc fn c = (c', Err e)).
  { intros fn c Hok. destruct (read_word_lemma _ fn c doc all Ht) as (ws & more & E & Hs & _ & _ & ->).
    specialize (Hok ws c). destruct (for_each fn c ws) as [c' o]. cbn [snd] in Hok. subst o.
    destruct more as [|x more].
    - destruct Hbad as [->|(x & Hx & Hl)]; [eauto|]. exfalso.
      rewrite app_nil_r in E. subst ws. rewrite Forall_forall in Hs. apply Hs in Hx. lia.
    - eauto. }
  split.
  - destruct (G (mem_load_word lower verbose lb) (corpus_new doc lc maxc minc)) as (c' & e & E).
    + induction ws as [|x ws IH]; intros c; [reflexivity|].
      cbn [for_each]. unfold mem_load_word at 1. cbv zeta. destruct (dict_id _ _). rewrite Hr. apply IH.
    + exists e. unfold mem_load. cbn [c_doc corpus_new]. fold (corpus_new doc lc maxc minc). now rewrite E.
  - destruct (G (fs_load_word lower verbose lb) (corpus_new doc lc maxc minc)) as (c' & e & E).
    + induction ws as [|x ws IH]; intros c; [reflexivity|].
      cbn [for_each]. unfold fs_load_word at 1. cbv zeta. rewrite Hr. apply IH.
    + exists e. unfold fs_load. cbn [c_doc corpus_new]. fold (corpus_new doc lc maxc minc). now rewrite E.
Qed.

(** LogBatch 0 with verbose on panics on the first word. *)
Lemma log_batch_zero_lemma lower doc lc maxc minc x all w : tokens (rd_data doc) (x :: all) ->
  (Z.of_nat (length x) <= 65533)%Z ->
  snd (mem_load lower true 0 (corpus_new doc lc maxc minc) w) = Panic /\
  snd (fs_load lower true 0 (corpus_new doc lc maxc minc) w) = Panic.
Proof.
  intros Ht Hx. unfold mem_load, fs_load. cbn [c_doc corpus_new]. fold (corpus_new doc lc maxc minc).
  split.
  - destruct (read_word_lemma _ (mem_load_word lower true 0) (corpus_new doc lc maxc minc) doc _ Ht)
      as (ws & more & E & _ & Hm & _ & ->).
    destruct ws as [|y ws]; [simpl in E; subst more; specialize (Hm _ _ eq_refl); lia|].
    cbn [for_each]. unfold mem_load_word at 1. cbv zeta. destruct (dict_id _ _). reflexivity.
  - destruct (read_word_lemma _ (fs_load_word lower true 0) (corpus_new doc lc maxc minc) doc _ Ht)
      as (ws & more & E & _ & Hm & _ & ->).
    destruct ws as [|y ws]; [simpl in E; subst more; specialize (Hm _ _ eq_refl); lia|].
    reflexivity.
Qed.

Lemma filters_lemma maxc minc d id f : dict_id_freq d (Z.of_nat id) = Ret f ->
  filters_any (corpus_filters maxc minc) false id d = Ret (negb (kept maxc minc f)).
Proof.
  intros H. unfold corpus_filters, filters_any, max_count, min_count, kept.
  rewrite H. cbn [obind].
  destruct (Z.ltb_spec 0 maxc), (Z.leb_spec maxc 0), (Z.leb_spec 0 minc), (Z.ltb_spec minc 0);
    try lia; cbn [obind];
    repeat match goal with
    | |- context [(?x <? ?y)%Z] => destruct (Z.ltb_spec x y)
    | |- context [(?x <=? ?y)%Z] => destruct (Z.leb_spec x y)
    end; try lia; reflexivity.
Qed.

Lemma kept_id maxc minc lw d w : dict_repr lw d -> In w lw ->
  filters_any (corpus_filters maxc minc) false (word_id lw w) d =
  Ret (negb (kept maxc minc (occurrences w lw))).
Proof.
  intros R Hw. apply filters_lemma. apply (repr_id_freq lw d R).
  unfold word_id. apply position_nth. now apply In_distinct.
Qed.

Lemma indexed_doc_run maxc minc lw d l : dict_repr lw d -> incl l lw -> forall res,
  indexed_doc_loop (corpus_filters maxc minc) d (map (word_id lw) l) res =
  Ret (res ++ map (word_id lw) (filter (fun w => kept maxc minc (occurrences w lw)) l)).
Proof.
  intros R. induction l as [|w l IH]; intros Hi res.
  - simpl. now rewrite app_nil_r.
  - cbn [map indexed_doc_loop]. rewrite (kept_id maxc minc lw d w R) by (apply Hi; left; auto).
    cbn [obind filter]. assert (incl l lw) by (intros x Hx; apply Hi; right; auto).
    destruct (kept maxc minc (occurrences w lw)); cbn [negb].
    + rewrite IH by auto. cbn [map]. now rewrite <- app_assoc.
    + now rewrite IH.
Qed.

Lemma indexed_doc_lemma lower verbose lb doc lc maxc minc all w :
  verbose = false \/ lb <> 0%Z -> tokens (rd_data doc) all -> rd_err doc = false -> fits all ->
  let lw := lowered lower lc all in
  let c := fst (mem_load lower verbose lb (corpus_new doc lc maxc minc) w) in
  exists ids, mem_indexed_doc c = Ret ids /\
    ids = map (fun x => fst (dict_id (c_dic c) x)) (kept_words maxc minc lw) /\
    Forall (fun id => id < dict_len (c_dic c) /\
      exists f, dict_id_freq (c_dic c) (Z.of_nat id) = Ret f /\ kept maxc minc f = true) ids.
Proof.
  intros Hr Ht He Hf lw. apply report_ok in Hr. cbv zeta.
  destruct (mem_load_state lower verbose lb doc lc maxc minc all w Hr Ht He Hf) as (o1 & -> & _).
  unfold mem_indexed_doc, set_cooc, fresh_loaded. cbn [c_max c_min c_dic c_idoc].
  rewrite lowered_eq. fold lw. pose proof (dict_repr_of lw) as R.
  rewrite (indexed_doc_run maxc minc lw _ lw R (incl_refl _)). cbn [app].
  eexists. split; [reflexivity|]. split.
  - unfold kept_words. apply map_ext_in. intros x Hx. apply filter_In in Hx as [Hx _].
    now rewrite (dict_id_word_id lw _ x R Hx).
  - apply Forall_forall. intros id Hid. apply in_map_iff in Hid as (x & <- & Hx).
    apply filter_In in Hx as [Hx Hk]. split.
    + rewrite (repr_len lw _ R). now apply word_id_lt.
    + exists (occurrences x lw). split; auto.
      apply (repr_id_freq lw _ R). unfold word_id. apply position_nth. now apply In_distinct.
Qed.

(** ** BatchWords *)

Definition kept_ids maxc minc lw l := map (word_id lw) (filter (fun w => kept maxc minc (occurrences w lw)) l).

Definition batch_inv (size : nat) (b : batch_st) (out : list nat) : Prop :=
  length (b_ids b) = size /\ b_cursor b < size /\
  Forall (fun x => length x = size) (b_sent b) /\
  concat (b_sent b) ++ firstn (b_cursor b) (b_ids b) = out.

Lemma firstn_upd_S {A} (l : list A) i x : i < length l -> firstn (S i) (upd l i x) = firstn i l ++ [x].
Proof.
  revert i; induction l as [|y l IH]; intros [|i] H; simpl in *; try lia; auto.
  f_equal. apply IH. lia.
Qed.

Lemma batch_run lower c size lw : dict_repr lw (c_dic c) -> 1 <= size ->
  forall ws b out, batch_inv size b out -> incl (map (low lower c) ws) lw ->
  exists b', for_each (batch_word lower c size) b ws = (b', Ret tt) /\
    batch_inv size b' (out ++ kept_ids (c_max c) (c_min c) lw (map (low lower c) ws)).
Proof.
  intros R Hs. induction ws as [|w ws IH]; intros b out Hb Hi.
  - exists b. split; auto. unfold kept_ids. simpl. now rewrite app_nil_r.
  - assert (Hw : In (low lower c w) lw) by (apply Hi; left; auto).
    assert (Hi' : incl (map (low lower c) ws) lw) by (intros x Hx; apply Hi; right; auto).
    cbn [for_each]. unfold batch_word at 1. cbv zeta.
    rewrite (dict_id_word_id lw _ _ R Hw). rewrite (kept_id _ _ lw _ _ R Hw).
    unfold kept_ids. cbn [map filter].
    destruct (kept (c_max c) (c_min c) (occurrences (low lower c w) lw)); cbn [negb].
    + destruct Hb as (H1 & H2 & H3 & H4).
      destruct (Nat.ltb_spec (b_cursor b) (length (b_ids b))); [|lia].
      cbn [map]. replace (out ++ word_id lw (low lower c w) :: map (word_id lw) (filter _ _))
        with ((out ++ [word_id lw (low lower c w)]) ++ kept_ids (c_max c) (c_min c) lw (map (low lower c) ws))
        by (rewrite <- app_assoc; reflexivity).
      destruct (Nat.eqb_spec (S (b_cursor b)) size) as [E|E].
      * apply IH; auto. split; [|split; [|split]]; cbn [b_ids b_cursor b_sent].
        -- now rewrite repeat_length.
        -- lia.
        -- apply Forall_app. split; auto. constructor; auto. now rewrite upd_length.
        -- rewrite concat_app. cbn [concat firstn]. rewrite !app_nil_r.
           assert (Eu : upd (b_ids b) (b_cursor b) (word_id lw (low lower c w)) =
                   firstn (b_cursor b) (b_ids b) ++ [word_id lw (low lower c w)]).
           { rewrite <- firstn_upd_S by lia. symmetry. apply firstn_all2. rewrite upd_length. lia. }
           rewrite Eu, <- H4. now rewrite app_assoc.
      * apply IH; auto. split; [|split; [|split]]; cbn [b_ids b_cursor b_sent].
        -- now rewrite upd_length.
        -- lia.
        -- auto.
        -- rewrite firstn_upd_S by lia. rewrite <- H4. now rewrite app_assoc.
    + apply IH; auto.
Qed.

Lemma batch_words_lemma lower verbose lb doc lc maxc minc all w pos size :
  verbose = false \/ lb <> 0%Z -> tokens (rd_data doc) all -> rd_err doc = false -> fits all ->
  1 <= size ->
  let cm := fst (mem_load lower verbose lb (corpus_new doc lc maxc minc) w) in
  let cf := fst (fs_load lower verbose lb (corpus_new doc lc maxc minc) w) in
  let r := {| rd_data := rd_data doc; rd_pos := pos; rd_err := false |} in
  exists full last ids,
    fs_batch_words lower cf r (Z.of_nat size) = (full ++ [last], true, Ret tt) /\
    Forall (fun b => length b = size) full /\ length last < size /\
    mem_indexed_doc cm = Ret ids /\ concat (full ++ [last]) = ids.
Proof.
  intros Hr Ht He Hf Hs. cbv zeta.
  destruct (indexed_doc_lemma lower verbose lb doc lc maxc minc all w Hr Ht He Hf) as (ids & I1 & I2 & _).
  apply report_ok in Hr.
  destruct (fs_load_state lower verbose lb doc lc maxc minc all w Hr Ht He Hf) as (o & -> & _).
  destruct (mem_load_state lower verbose lb doc lc maxc minc all w Hr Ht He Hf) as (o' & E & _).
  rewrite E in I2. unfold set_cooc, fresh_loaded in I2. cbn [c_dic] in I2. rewrite lowered_eq in I2.
  set (lw := lowered lower lc all) in *.
  set (c := set_cooc _ o).
  assert (R : dict_repr lw (c_dic c)).
  { unfold c, set_cooc, fresh_loaded. cbn [c_dic]. rewrite lowered_eq. apply dict_repr_of. }
  assert (El : map (low lower c) all = lw) by apply lowered_eq.
  unfold fs_batch_words. destruct (Z.ltb_spec (Z.of_nat size) 0); [lia|]. rewrite Nat2Z.id.
  rewrite (read_word_fits _ _ {| rd_data := rd_data doc; rd_pos := pos; rd_err := false |} all Ht eq_refl Hf).
  destruct (batch_run lower c size lw R Hs all
     {| b_cursor := 0; b_ids := repeat 0 size; b_sent := [] |} []) as (b' & E' & B1 & B2 & B3 & B4).
  - split; [|split; [|split]]; cbn; auto; try lia. apply repeat_length.
  - rewrite El. apply incl_refl.
  - rewrite E'. exists (b_sent b'), (firstn (b_cursor b') (b_ids b')), ids.
    split; [reflexivity|]. split; [assumption|]. split; [rewrite firstn_length; lia|].
    split; [exact I1|]. rewrite concat_app. cbn [concat]. rewrite app_nil_r, B4, El, I2. cbn [app].
    unfold kept_ids, kept_words, c. cbn [c_max c_min set_cooc fresh_loaded].
    apply map_ext_in. intros x Hx. apply filter_In in Hx as [Hx _].
    now rewrite (dict_id_word_id lw _ x (dict_repr_of lw) Hx).
Qed.

Lemma batch_zero_lemma lower verbose lb doc lc maxc minc all w :
  verbose = false \/ lb <> 0%Z -> tokens (rd_data doc) all -> rd_err doc = false -> fits all ->
  let cf := fst (fs_load lower verbose lb (corpus_new doc lc maxc minc) w) in
  (forall size, (size < 0)%Z -> fs_batch_words lower cf doc size = ([], false, Panic)) /\
  fs_batch_words lower cf doc 0 =
    (match kept_words maxc minc (lowered lower lc all) with
     | [] => ([[]], true, Ret tt)
     | _ => ([], false, Panic)
     end).
Proof.
  intros Hr Ht He Hf. cbv zeta. apply report_ok in Hr.
  destruct (fs_load_state lower verbose lb doc lc maxc minc all w Hr Ht He Hf) as (o & -> & _).
  set (lw := lowered lower lc all). set (c := set_cooc _ o).
  assert (R : dict_repr lw (c_dic c)).
  { unfold c, set_cooc, fresh_loaded. cbn [c_dic]. rewrite lowered_eq. apply dict_repr_of. }
  assert (El : map (low lower c) all = lw) by apply lowered_eq.
  split.
  - intros size Hs. unfold fs_batch_words. destruct (Z.ltb_spec size 0); [reflexivity|lia].
  - unfold fs_batch_words. change (0 <? 0)%Z with false. cbn iota. change (Z.to_nat 0) with 0.
    rewrite (read_word_fits _ _ doc all Ht He Hf). cbn [repeat].
    assert (G : forall ws b, incl (map (low lower c) ws) lw -> b_ids b = [] ->
       for_each (batch_word lower c 0) b ws =
       (b, match filter (fun x => kept maxc minc (occurrences x lw)) (map (low lower c) ws) with
           | [] => Ret tt | _ => Panic end)).
    { induction ws as [|x ws IH]; intros b Hi Hb; [reflexivity|].
      assert (Hw : In (low lower c x) lw) by (apply Hi; left; auto).
      cbn [for_each map filter]. unfold batch_word at 1. cbv zeta.
      rewrite (dict_id_word_id lw _ _ R Hw). rewrite (kept_id _ _ lw _ _ R Hw).
      change (c_max c) with maxc. change (c_min c) with minc.
      destruct (kept maxc minc (occurrences (low lower c x) lw)); cbn [negb].
      - rewrite Hb. reflexivity.
      - apply IH; auto. intros y Hy. apply Hi. right. auto. }
    rewrite G by (auto; rewrite El; apply incl_refl). rewrite El. fold (kept_words maxc minc lw).
    destruct (kept_words maxc minc lw); reflexivity.
Qed.

(** C16: a failing second pass. [seen] are the words the second pass delivers before failing. *)
Lemma batch_fail_lemma lower verbose lb doc lc maxc minc all w r seen more size :
  verbose = false \/ lb <> 0%Z -> tokens (rd_data doc) all -> rd_err doc = false -> fits all ->
  tokens (rd_data r) (seen ++ more) -> fits seen -> incl seen all -> 1 <= size ->
  (more = [] /\ rd_err r = true \/ exists x t, more = x :: t /\ (65536 <= Z.of_nat (length x))%Z) ->
  let cf := fst (fs_load lower verbose lb (corpus_new doc lc maxc minc) w) in
  exists full rest e,
    fs_batch_words lower cf r (Z.of_nat size) = (full, false, Err e) /\
    Forall (fun b => length b = size) full /\ length rest < size /\
    concat full ++ rest =
      map (fun x => fst (dict_id (c_dic cf) x))
          (filter (fun x => kept maxc minc (occurrences x (lowered lower lc all))) (lowered lower lc seen)).
Proof.
  intros Hr Ht He Hf Ht2 Hfs Hi Hs Hbad. cbv zeta. apply report_ok in Hr.
  destruct (fs_load_state lower verbose lb doc lc maxc minc all w Hr Ht He Hf) as (o & -> & _).
  set (lw := lowered lower lc all). set (c := set_cooc _ o).
  assert (R : dict_repr lw (c_dic c)).
  { unfold c, set_cooc, fresh_loaded. cbn [c_dic]. rewrite lowered_eq. apply dict_repr_of. }
  assert (El : map (low lower c) seen = lowered lower lc seen) by apply lowered_eq.
  unfold fs_batch_words. destruct (Z.ltb_spec (Z.of_nat size) 0); [lia|]. rewrite Nat2Z.id.
  destruct (read_word_lemma _ (batch_word lower c size) {| b_cursor := 0; b_ids := repeat 0 size; b_sent := [] |}
     r _ Ht2) as (ws & more' & E & Hws & Hm1 & Hm2 & ->).
  assert (ws = seen /\ more' = more) as [-> ->].
  { clear -E Hfs Hws Hm1 Hm2 Hbad.
    destruct (app_split _ _ _ _ E) as [(k & -> & ->)|(k & Hk & -> & ->)].
    - destruct k as [|k0 k]; [rewrite app_nil_r; auto|]. exfalso.
      destruct Hbad as [[Hm _]|(x & t & Hm & Hl)]; [discriminate|]. inversion Hm; subst.
      rewrite Forall_forall in Hws. specialize (Hws x ltac:(apply in_or_app; right; left; auto)). lia.
    - exfalso. destruct k as [|k0 k]; [congruence|]. specialize (Hm1 _ _ eq_refl).
      unfold fits in Hfs. rewrite Forall_forall in Hfs.
      specialize (Hfs k0 ltac:(apply in_or_app; right; left; auto)). simpl in Hfs. lia. }
  assert (Hincl : incl (map (low lower c) seen) lw).
  { unfold lw. rewrite <- lowered_eq. intros x Hx. apply in_map_iff in Hx as (y & <- & Hy).
    apply in_map_iff. exists y. split; [reflexivity|auto]. }
  destruct (batch_run lower c size lw R Hs seen
     {| b_cursor := 0; b_ids := repeat 0 size; b_sent := [] |} []) as (b' & E' & B1 & B2 & B3 & B4); auto.
  - split; [|split; [|split]]; cbn; auto; try lia. apply repeat_length.
  - rewrite E'. cbn [app] in B4.
    assert (Hout : concat (b_sent b') ++ firstn (b_cursor b') (b_ids b') =
      map (fun x => fst (dict_id (c_dic c) x))
          (filter (fun x => kept maxc minc (occurrences x lw)) (lowered lower lc seen))).
    { rewrite B4, El. unfold kept_ids. change (c_max c) with maxc. change (c_min c) with minc.
      apply map_ext_in. intros x Hx. apply filter_In in Hx as [Hx _]. rewrite <- El in Hx. apply Hincl in Hx.
      now rewrite (dict_id_word_id lw _ x R Hx). }
    exists (b_sent b'), (firstn (b_cursor b') (b_ids b')).
    destruct Hbad as [[-> ->]|(x & t & -> & _)]; eexists; (split; [reflexivity|]);
      (split; [assumption|]); (split; [rewrite firstn_length; lia|]); exact Hout.
Qed.

(** ** Proximity counting fails on repeated words *)
Lemma prox_run l : Forall (fun p => in32 (fst p) /\ in32 (snd p)) l -> forall c, co_typ c = "prox"%string ->
  (snd (for_each (fun c p => co_add c (fst p) (snd p)) c l) = Ret tt /\ Forall (fun p => fst p <> snd p) l) \/
  (snd (for_each (fun c p => co_add c (fst p) (snd p)) c l) = Err err_zero_div /\ Exists (fun p => fst p = snd p) l).
Proof.
  induction 1 as [|[a b] l [Ha Hb] Hl IH]; intros c Hty; [left; auto|].
  cbn [for_each fst snd] in *.
  destruct (proximity_lemma c a b Hty Ha Hb) as [P1 P2].
  destruct (Z.eq_dec a b) as [E|E].
  - right. unfold co_add. rewrite Hty. change (String.eqb "prox" increment) with false.
    change (String.eqb "prox" proximity) with true. cbn iota. rewrite wrap_int_small by (unfold in32 in *; lia).
    replace (a - b =? 0)%Z with true by lia. split; [reflexivity|]. left. exact E.
  - destruct (P2 E) as (c' & w & E' & Hty' & _). rewrite E'.
    destruct (IH c' Hty') as [[H1 H2]|[H1 H2]]; [left|right]; split; auto.
Qed.

Lemma prox_load_lemma lower verbose lb doc lc maxc minc all win :
  verbose = false \/ lb <> 0%Z -> tokens (rd_data doc) all -> rd_err doc = false -> fits all ->
  let lw := lowered lower lc all in
  (Z.of_nat (length (distinct lw)) <= 2 ^ 32)%Z ->
  let res := snd (mem_load lower verbose lb (corpus_new doc lc maxc minc) (Some {| w_type := "prox"; w_window := win |})) in
  (res = Ret tt <-> forall x y, In (x, y) (window_pairs (Z.to_nat win) lw) -> x <> y) /\
  (res <> Ret tt -> exists e, res = Err e).
Proof.
  intros Hr Ht He Hf lw Hv. apply report_ok in Hr. cbv zeta.
  rewrite (mem_load_run lower verbose lb doc lc maxc minc all "prox" win {| co_typ := "prox"; co_ma := [] |}
    Hr Ht He Hf eq_refl).
  rewrite lowered_eq. fold lw.
  set (f := fun w => Z.of_nat (word_id lw w)).
  assert (H32 : forall w, In w lw -> in32 (f w)).
  { intros w Hw. apply word_id_lt in Hw. unfold in32, f. lia. }
  set (l := map _ (window_pairs (Z.to_nat win) lw)).
  assert (Hl : Forall (fun p => in32 (fst p) /\ in32 (snd p)) l).
  { apply Forall_forall. intros q Hq. apply in_map_iff in Hq as (p & <- & Hin).
    apply In_window in Hin. simpl. split; apply H32; tauto. }
  pose proof (prox_run l Hl {| co_typ := "prox"; co_ma := [] |} eq_refl) as P.
  destruct (for_each _ _ l) as [co o]. cbn [snd] in *.
  destruct P as [[-> P]|[-> P]].
  - split; [|congruence]. split; [|auto]. intros _ x y Hin E. subst y. rewrite Forall_forall in P.
    apply (P (f x, f x)); auto. apply in_map_iff. exists (x, x). auto.
  - split; [|eauto]. split; [discriminate|]. intros H. exfalso.
    apply Exists_exists in P as (q & Hq & E). apply in_map_iff in Hq as ((x & y) & <- & Hin).
    cbn [fst snd] in E. apply (H x y Hin). pose proof (In_window _ _ _ Hin) as [Hx Hy].
    apply (word_id_inj lw); auto. lia.
Qed.
