(** * Proofs about Spec/Counts.v *)
From Coq Require Import Reals Lia Lra Permutation.
From Verif.Lib Require Import Go F64 F64Facts.
From Verif.Spec Require Import Words Tokens Window Pairs Counts.
From Verif.Model Require Import Dictionary Encode Cooc Reader Corpus.
From Verif.Proofs Require Import Cooc Corpus.
Local Open Scope nat_scope.

(** ** Window pairs by distance *)
Lemma flat_map_perm {A B} (f g : A -> list B) l :
  Permutation (flat_map (fun d => f d ++ g d) l) (flat_map f l ++ flat_map g l).
Proof.
  induction l as [|d l IH]; cbn [flat_map]; [constructor|].
  rewrite <- !app_assoc. apply Permutation_app_head.
  etransitivity; [apply Permutation_app_head, IH|].
  rewrite !app_assoc. apply Permutation_app_tail, Permutation_app_comm.
Qed.

Lemma firsts {A} (w : A) : forall n (t : list A),
  flat_map (fun d => match nth_error t (d - 1) with Some x => [(w, x)] | None => [] end) (seq 1 n) =
  map (pair w) (firstn n t).
Proof.
  intros n. induction n as [|n IH]; intros t; [reflexivity|].
  destruct t as [|x t].
  - cbn [firstn map]. clear. assert (G : forall l, flat_map (fun d => match nth_error (@nil A) (d - 1) with Some x => [(w, x)] | None => [] end) l = @nil (A * A)).
    { intros l. induction l as [|d l IH]; [reflexivity|]. cbn [flat_map]. rewrite IH. destruct (d - 1); reflexivity. }
    apply G.
  - cbn [seq flat_map firstn map]. replace (1 - 1) with 0 by lia. cbn [nth_error app]. f_equal.
    rewrite <- IH. rewrite <- seq_shift. rewrite flat_map_concat_map, map_map, <- flat_map_concat_map.
    assert (G : forall l, Forall (fun d => 1 <= d) l ->
      flat_map (fun d => match nth_error (x :: t) (S d - 1) with Some y => [(w, y)] | None => [] end) l =
      flat_map (fun d => match nth_error t (d - 1) with Some y => [(w, y)] | None => [] end) l).
    { induction 1 as [|d l Hd _ IH']; [reflexivity|]. cbn [flat_map]. rewrite IH'. f_equal.
      destruct d; [lia|]. replace (S (S d) - 1) with (S d) by lia. replace (S d - 1) with d by lia. reflexivity. }
    apply G. apply Forall_forall. intros d Hd. apply in_seq in Hd. lia.
Qed.

Lemma by_distance {A} n : forall l : list A,
  Permutation (window_pairs n l) (flat_map (fun d => combine l (skipn d l)) (seq 1 n)).
Proof.
  induction l as [|w t IH]; cbn [window_pairs].
  - assert (G : forall s, flat_map (fun d => combine (@nil A) (skipn d (@nil A))) s = []).
    { induction s; auto. }
    rewrite G. constructor.
  - etransitivity; [apply Permutation_app_head, IH|]. rewrite <- firsts.
    etransitivity; [symmetry; apply flat_map_perm|].
    assert (G : forall s, Forall (fun d => 1 <= d) s ->
      flat_map (fun d => match nth_error t (d - 1) with Some x => [(w, x)] | None => [] end ++ combine t (skipn d t)) s =
      flat_map (fun d => combine (w :: t) (skipn d (w :: t))) s).
    { induction 1 as [|d s Hd _ IHs]; [reflexivity|]. cbn [flat_map]. rewrite IHs. f_equal.
      destruct d as [|d]; [lia|]. change (skipn (S d) (w :: t)) with (skipn d t). replace (S d - 1) with d by lia.
      destruct (nth_error t d) as [x|] eqn:E.
      - apply nth_error_split in E as (l1 & l2 & -> & <-).
        rewrite (skipn_app (length l1)), skipn_all, Nat.sub_diag.
        rewrite (skipn_app (S (length l1))), (skipn_all2 l1) by lia.
        replace (S (length l1) - length l1) with 1 by lia. reflexivity.
      - apply nth_error_None in E. rewrite !skipn_all2 by lia. destruct t; reflexivity. }
    rewrite G; [reflexivity|]. apply Forall_forall. intros d Hd. apply in_seq in Hd. lia.
Qed.

Lemma pair_count_perm {A} (eqd : forall x y : A, {x = y} + {x <> y}) a b l l' :
  Permutation l l' -> pair_count eqd a b l = pair_count eqd a b l'.
Proof.
  unfold pair_count. induction 1 as [|p l l' _ IH|p q l|l l' l'' _ IH1 _ IH2]; cbn [filter]; auto.
  - destruct (same_pair eqd (a, b) p); cbn [length]; congruence.
  - destruct (same_pair eqd (a, b) q), (same_pair eqd (a, b) p); reflexivity.
  - congruence.
Qed.

Lemma pair_count_appl {A} (eqd : forall x y : A, {x = y} + {x <> y}) a b l l' :
  pair_count eqd a b (l ++ l') = pair_count eqd a b l + pair_count eqd a b l'.
Proof. unfold pair_count. rewrite filter_app, app_length. reflexivity. Qed.

Lemma same_pair_swap {A} (eqd : forall x y : A, {x = y} + {x <> y}) p c d :
  same_pair eqd p (c, d) = same_pair eqd p (d, c).
Proof. destruct p as [a b]. unfold same_pair. rewrite Bool.orb_comm. reflexivity. Qed.

Lemma pair_count_swap {A} (eqd : forall x y : A, {x = y} + {x <> y}) a b l :
  pair_count eqd a b (map (fun p => (snd p, fst p)) l) = pair_count eqd a b l.
Proof.
  unfold pair_count. induction l as [|[c d] l IH]; [reflexivity|]. cbn [map filter fst snd].
  rewrite (same_pair_swap eqd (a, b) d c). destruct (same_pair eqd (a, b) (c, d)); cbn [length]; rewrite IH; reflexivity.
Qed.

(** ** The text read backwards *)
Lemma combine_swap {A B} : forall (l : list A) (m : list B), combine m l = map (fun p => (snd p, fst p)) (combine l m).
Proof. induction l as [|x l IH]; intros [|y m]; try reflexivity. cbn [combine map fst snd]. f_equal. apply IH. Qed.

Lemma combine_rev {A B} : forall (l : list A) (m : list B), length l = length m -> combine (rev l) (rev m) = rev (combine l m).
Proof.
  assert (C : forall (l l' : list A) (m m' : list B), length l = length m -> combine (l ++ l') (m ++ m') = combine l m ++ combine l' m').
  { induction l as [|x l IH]; intros l' [|y m] m' E; cbn [length] in E; try lia; [reflexivity|]. cbn [app combine]. f_equal. apply IH. lia. }
  induction l as [|x l IH]; intros [|y m] E; cbn [length] in E; try lia; [reflexivity|].
  cbn [rev combine]. rewrite C by (rewrite !rev_length; lia). rewrite IH by lia. reflexivity.
Qed.

Lemma combine_short {A B} : forall (l : list A) (m : list B), combine l m = combine (firstn (length m) l) m.
Proof. induction l as [|x l IH]; intros [|y m]; try reflexivity. cbn [length firstn combine]. f_equal. apply IH. Qed.

Lemma combine_short2 {A B} : forall (l : list A) (m : list B), combine l m = combine l (firstn (length l) m).
Proof. induction l as [|x l IH]; intros [|y m]; try reflexivity. cbn [length firstn combine]. f_equal. apply IH. Qed.

Lemma shifted_reverse {A} (l : list A) d :
  combine (rev l) (skipn d (rev l)) = rev (map (fun p => (snd p, fst p)) (combine l (skipn d l))).
Proof.
  rewrite <- combine_swap. destruct (Nat.le_gt_cases d (length l)) as [H|H].
  - rewrite skipn_rev, (combine_short (rev l)), rev_length, firstn_length, Nat.min_l by lia.
    rewrite firstn_rev. replace (length l - (length l - d)) with d by lia.
    rewrite combine_rev by (rewrite skipn_length, firstn_length; lia).
    rewrite (combine_short2 (skipn d l) l), skipn_length. reflexivity.
  - rewrite !skipn_all2 by (rewrite ?rev_length; lia). rewrite combine_swap. reflexivity.
Qed.

Lemma window_reverse {A} (eqd : forall x y : A, {x = y} + {x <> y}) a b n l :
  pair_count eqd a b (window_pairs n (rev l)) = pair_count eqd a b (window_pairs n l).
Proof.
  rewrite (pair_count_perm eqd a b _ _ (by_distance n (rev l))), (pair_count_perm eqd a b _ _ (by_distance n l)).
  induction (seq 1 n) as [|d s IH]; [reflexivity|]. cbn [flat_map].
  rewrite !pair_count_appl, IH, shifted_reverse. f_equal.
  rewrite <- (pair_count_swap eqd a b (combine l (skipn d l))).
  apply pair_count_perm. symmetry. apply Permutation_rev.
Qed.

(** ** Larger windows, longer texts *)
Lemma window_mono {A} (eqd : forall x y : A, {x = y} + {x <> y}) a b n m l : n <= m ->
  pair_count eqd a b (window_pairs n l) <= pair_count eqd a b (window_pairs m l).
Proof.
  intros H. rewrite (pair_count_perm eqd a b _ _ (by_distance n l)), (pair_count_perm eqd a b _ _ (by_distance m l)).
  replace m with (n + (m - n)) by lia. rewrite seq_app, flat_map_app, pair_count_appl. lia.
Qed.

Lemma window_append {A} (eqd : forall x y : A, {x = y} + {x <> y}) a b n l l' :
  pair_count eqd a b (window_pairs n l) + pair_count eqd a b (window_pairs n l') <= pair_count eqd a b (window_pairs n (l ++ l')).
Proof.
  induction l as [|w t IH]; cbn [app window_pairs]; [reflexivity|].
  rewrite !pair_count_appl, firstn_app, map_app, pair_count_appl. lia.
Qed.

(** ** Bounds *)
Section Bounds.
Context {A : Type} (eqd : forall x y : A, {x = y} + {x <> y}).
Notation occ := (fun a l => count_occ eqd l a).

Lemma combine_count (a b : A) : a <> b -> forall l m, pair_count eqd a b (combine l m) <= occ a l + occ a m.
Proof.
  intros N. induction l as [|x l IH]; intros [|y m]; cbn [combine]; try (unfold pair_count; cbn [filter length]; lia).
  specialize (IH m). unfold pair_count in *. cbn [filter same_pair count_occ].
  destruct (eqd a x), (eqd b y), (eqd a y), (eqd b x); subst; cbn [orb length];
    try (destruct (eqd x x); [|congruence]); try (destruct (eqd y y); [|congruence]);
    repeat match goal with |- context [eqd ?u ?v] => destruct (eqd u v); try congruence end; cbn [length]; try lia.
Qed.

Lemma combine_count_same (a : A) : forall l m, pair_count eqd a a (combine l m) <= occ a l.
Proof.
  induction l as [|x l IH]; intros [|y m]; cbn [combine]; try (unfold pair_count; cbn [filter length]; lia).
  specialize (IH m). unfold pair_count in *. cbn [filter same_pair count_occ].
  destruct (eqd a x), (eqd a y); subst; cbn [orb length];
    repeat match goal with |- context [eqd ?u ?v] => destruct (eqd u v); try congruence end; cbn [length]; try lia.
Qed.

Lemma occ_skipn a (l : list A) : forall d, occ a (skipn d l) <= occ a l.
Proof.
  induction l as [|x l IH]; intros [|d]; cbn [skipn]; try lia.
  specialize (IH d). cbn [count_occ]. destruct (eqd x a); lia.
Qed.

Lemma window_bound (a b : A) n l : a <> b -> pair_count eqd a b (window_pairs n l) <= 2 * n * occ a l.
Proof.
  intros N. rewrite (pair_count_perm eqd a b _ _ (by_distance n l)).
  assert (G : forall s, pair_count eqd a b (flat_map (fun d => combine l (skipn d l)) s) <= 2 * length s * occ a l).
  { induction s as [|d s IH]; [unfold pair_count; cbn; lia|]. cbn [flat_map length]. rewrite pair_count_appl.
    pose proof (combine_count a b N l (skipn d l)). pose proof (occ_skipn a l d). cbv beta in *. nia. }
  specialize (G (seq 1 n)). rewrite seq_length in G. exact G.
Qed.

Lemma window_bound_same (a : A) n l : pair_count eqd a a (window_pairs n l) <= n * occ a l.
Proof.
  rewrite (pair_count_perm eqd a a _ _ (by_distance n l)).
  assert (G : forall s, pair_count eqd a a (flat_map (fun d => combine l (skipn d l)) s) <= length s * occ a l).
  { induction s as [|d s IH]; [unfold pair_count; cbn; lia|]. cbn [flat_map length]. rewrite pair_count_appl.
    pose proof (combine_count_same a l (skipn d l)). cbv beta in *. nia. }
  specialize (G (seq 1 n)). rewrite seq_length in G. exact G.
Qed.

(** ** Windows as long as the text *)
Lemma row_count (a b w : A) : a <> b -> forall t,
  pair_count eqd a b (map (pair w) t) = if eqd w a then occ b t else if eqd w b then occ a t else 0.
Proof.
  intros N. induction t as [|x t IH]; cbn [map].
  - unfold pair_count. cbn. destruct (eqd w a), (eqd w b); reflexivity.
  - unfold pair_count in *. cbn [filter same_pair count_occ].
    destruct (eqd a w), (eqd w a); try congruence; destruct (eqd b w), (eqd w b); try congruence; subst;
    destruct (eqd b x), (eqd x b); try congruence; destruct (eqd a x), (eqd x a); try congruence; subst; cbn [orb length]; try congruence; try lia.
Qed.
Lemma row_count_same (a w : A) : forall t, pair_count eqd a a (map (pair w) t) = if eqd w a then occ a t else 0.
Proof.
  induction t as [|x t IH]; cbn [map].
  - unfold pair_count. cbn. destruct (eqd w a); reflexivity.
  - unfold pair_count in *. cbn [filter same_pair count_occ].
    destruct (eqd a w), (eqd w a); try congruence; destruct (eqd a x), (eqd x a); try congruence; subst; cbn [orb length]; try congruence; try lia.
Qed.

Lemma whole_count (a b : A) n : a <> b -> forall l, length l <= S n ->
  pair_count eqd a b (window_pairs n l) = occ a l * occ b l.
Proof.
  intros N. induction l as [|w t IH]; intros H; cbn [window_pairs length] in *; [reflexivity|].
  rewrite pair_count_appl, firstn_all2, row_count, IH by (auto; lia). cbn [count_occ].
  destruct (eqd w a), (eqd w b); subst; try congruence; nia.
Qed.
Lemma whole_count_same (a : A) n : forall l, length l <= S n ->
  2 * pair_count eqd a a (window_pairs n l) = occ a l * (occ a l - 1).
Proof.
  induction l as [|w t IH]; intros H; cbn [window_pairs length] in *; [reflexivity|].
  rewrite pair_count_appl, firstn_all2, row_count_same by lia. specialize (IH ltac:(lia)). cbn [count_occ].
  destruct (eqd w a); nia.
Qed.
End Bounds.

(** ** How many pairs *)
Lemma window_length {A} n (l : list A) :
  length (window_pairs n l) = fold_right Nat.add 0 (map (fun d => length l - d) (seq 1 n)).
Proof.
  rewrite (Permutation_length (by_distance n l)).
  induction (seq 1 n) as [|d s IH]; [reflexivity|]. cbn [flat_map map fold_right].
  rewrite app_length, IH, combine_length, skipn_length. lia.
Qed.

Lemma upto_length {A} n : forall k (l : list A), k <= length l ->
  length (window_pairs_upto k n l) + length (window_pairs n (skipn k l)) = length (window_pairs n l).
Proof.
  induction k as [|k IH]; intros [|w t] H; cbn [length] in H; try lia; [reflexivity|reflexivity|].
  cbn [window_pairs_upto window_pairs skipn]. rewrite !app_length, <- (IH t) by lia. lia.
Qed.

Lemma triangle {A} n : forall l : list A, length l <= S n -> 2 * length (window_pairs n l) = length l * (length l - 1).
Proof.
  induction l as [|w t IH]; intros H; cbn [window_pairs length] in *; [reflexivity|].
  rewrite app_length, map_length, firstn_all2 by lia. specialize (IH ltac:(lia)). nia.
Qed.

Lemma lost_pairs {A} n (l : list A) : 1 <= n < length l ->
  2 * length (window_pairs n l) = 2 * length (window_pairs_upto (length l - n + 1) n l) + (n - 1) * (n - 2).
Proof.
  intros H. rewrite <- (upto_length n (length l - n + 1) l) by lia.
  pose proof (triangle n (skipn (length l - n + 1) l)) as T. rewrite skipn_length in T. specialize (T ltac:(lia)).
  replace (length l - (length l - n + 1)) with (n - 1) in T by lia. replace (n - 1 - 1) with (n - 2) in T by lia. lia.
Qed.

(** ** The sum of the matrix *)
Local Open Scope R_scope.
Notation key p := (encode_bigram (fst p) (snd p)).

Lemma indicator k0 : forall ks, NoDup ks -> In k0 ks ->
  fold_right Nat.add 0%nat (map (fun k => if (k0 =? k)%Z then 1%nat else 0%nat) ks) = 1%nat.
Proof.
  assert (Z0 : forall ks, ~ In k0 ks -> fold_right Nat.add 0%nat (map (fun k => if (k0 =? k)%Z then 1%nat else 0%nat) ks) = 0%nat).
  { induction ks as [|k ks IH]; [reflexivity|]. intros H. cbn [map fold_right]. rewrite IH by (intros I; apply H; right; exact I).
    destruct (Z.eqb_spec k0 k); [exfalso; apply H; left; auto|reflexivity]. }
  induction 1 as [|k ks N _ IH]; [intros []|]. intros [<-|H]; cbn [map fold_right].
  - rewrite Z.eqb_refl, Z0 by exact N. reflexivity.
  - destruct (Z.eqb_spec k0 k); [subst; contradiction|]. now rewrite IH.
Qed.

Lemma key_sum ks adds : NoDup ks -> (forall p, In p adds -> In (key p) ks) ->
  fold_right Nat.add 0%nat (map (fun k => key_count k adds) ks) = length adds.
Proof.
  intros N. induction adds as [|p adds IH]; intros H.
  - clear. induction ks as [|k ks IH]; [reflexivity|]. cbn [map fold_right]. rewrite IH. reflexivity.
  - cbn [length]. rewrite <- IH by (intros q Hq; apply H; right; exact Hq).
    pose proof (indicator (key p) ks N ltac:(apply H; left; reflexivity)) as E1. revert E1. generalize 1%nat at 2. intros one E1.
    transitivity (one + fold_right Nat.add 0%nat (map (fun k => key_count k adds) ks))%nat; [|subst one; rewrite (indicator (key p) ks N) by (apply H; left; reflexivity); reflexivity]. subst one.
    clear. induction ks as [|k ks IH]; [reflexivity|]. cbn [map fold_right]. rewrite IH.
    unfold key_count. cbn [filter]. destruct (key p =? k)%Z; cbn [length]; lia.
Qed.

Lemma total_run adds : Forall (fun p => in32 (fst p) /\ in32 (snd p)) adds -> (Z.of_nat (length adds) <= 2 ^ 53)%Z ->
  exists c, for_each (fun c p => co_add c (fst p) (snd p)) {| co_typ := "inc"; co_ma := [] |} adds = (c, Ret tt) /\
    fold_right Rplus 0 (map (fun kv => f2r (snd kv)) (co_ma c)) = INR (length adds).
Proof.
  intros Hf Hl.
  destruct (inc_run adds Hf {| co_typ := increment; co_ma := [] |} []) as (c & R1 & R2 & R3 & R4);
    [reflexivity|intros k; reflexivity|constructor|].
  exists c. split; [exact R1|]. cbn [app] in R3.
  rewrite <- (key_sum (map fst (co_ma c)) adds R4).
  - assert (G : forall m, incl m (co_ma c) ->
      fold_right Rplus 0 (map (fun kv => f2r (snd kv)) m) = INR (fold_right Nat.add 0%nat (map (fun k => key_count k adds) (map fst m)))).
    { induction m as [|[k v] m IH]; intros I; [reflexivity|]. cbn [map fold_right fst snd].
      rewrite plus_INR, IH by (intros x Hx; apply I; right; exact Hx). f_equal.
      assert (Hg : mget Z.eq_dec k (co_ma c) = Some v) by (apply ListFacts.In_mget; [exact R4|apply I; left; reflexivity]).
      specialize (R3 k). rewrite Hg in R3.
      assert (Hk : (key_count k adds <= length adds)%nat).
      { unfold key_count. clear. induction adds as [|p l IH]; [cbn; lia|]. cbn [filter]. destruct (_ =? _)%Z; cbn [length]; lia. }
      destruct (key_count k adds) as [|n]; cbn [cell_ok] in R3; [discriminate|].
      destruct R3 as (v' & E & _ & V). assert (v' = v) by congruence. subst v'. rewrite V. unfold cap.
      rewrite Z.min_l by lia. now rewrite <- INR_IZR_INZ. }
    apply G. apply incl_refl.
  - intros p Hp. specialize (R3 (key p)).
    destruct (in_dec Z.eq_dec (key p) (map fst (co_ma c))) as [H|H]; [exact H|].
    apply (ListFacts.mget_None_notin Z.eq_dec) in H. rewrite H in R3.
    assert (K : (1 <= key_count (key p) adds)%nat).
    { unfold key_count. clear - Hp. induction adds as [|q l IH]; [destruct Hp|]. cbn [filter].
      destruct Hp as [->|Hp]; [rewrite Z.eqb_refl; cbn [length]; lia|]. specialize (IH Hp). destruct (_ =? _)%Z; cbn [length]; lia. }
    destruct (key_count (key p) adds); [lia|]. destruct R3 as (v & E & _). discriminate.
Qed.

Section Loads.
Variables (lower : gostring -> gostring) (verbose : bool) (lb : Z).
Hypothesis Hr : verbose = false \/ lb <> 0%Z.
Notation mem doc lc maxc minc win := (mem_load lower verbose lb (corpus_new doc lc maxc minc) (Some {| w_type := "inc"; w_window := win |})).
Notation file doc lc maxc minc win := (fs_load lower verbose lb (corpus_new doc lc maxc minc) (Some {| w_type := "inc"; w_window := win |})).

Lemma ids_in32 (lw : list gostring) (f : list gostring -> gostring -> nat) (pairs : list (gostring * gostring)) :
  (Z.of_nat (length (distinct lw)) <= 2 ^ 32)%Z ->
  (forall p, In p pairs -> (f lw (fst p) < length (distinct lw) \/ f lw (fst p) = 0)%nat /\ (f lw (snd p) < length (distinct lw) \/ f lw (snd p) = 0)%nat) ->
  Forall (fun p => in32 (fst p) /\ in32 (snd p)) (map (fun p => (Z.of_nat (f lw (fst p)), Z.of_nat (f lw (snd p)))) pairs).
Proof.
  intros Hv H. apply Forall_forall. intros q Hq. apply in_map_iff in Hq as (p & <- & Hp). apply H in Hp.
  cbn [fst snd]. unfold in32. lia.
Qed.

Lemma mem_total_lemma doc lc maxc minc all win :
  tokens (rd_data doc) all -> rd_err doc = false -> fits all ->
  (Z.of_nat (length (distinct (lowered lower lc all))) <= 2 ^ 32)%Z ->
  let T := length (window_pairs (Z.to_nat win) all) in (Z.of_nat T <= 2 ^ 53)%Z ->
  exists c, mem doc lc maxc minc win = (c, Ret tt) /\ total c = INR T.
Proof.
  intros Ht He Hf Hv T HT. pose proof (report_ok _ _ Hr) as Hr'.
  pose proof (mem_load_run lower verbose lb doc lc maxc minc all "inc" win {| co_typ := "inc"; co_ma := [] |}
    Hr' Ht He Hf eq_refl) as H.
  cbv zeta in H. rewrite lowered_eq in H. set (lw := lowered lower lc all) in *.
  assert (EL : length (window_pairs (Z.to_nat win) lw) = T).
  { unfold T. rewrite !window_length. replace (length lw) with (length all); [reflexivity|].
    unfold lw, lowered. destruct lc; [now rewrite map_length|reflexivity]. }
  destruct (total_run (map (fun p => (Z.of_nat (word_id lw (fst p)), Z.of_nat (word_id lw (snd p)))) (window_pairs (Z.to_nat win) lw))) as (co & R1 & R2).
  - apply (ids_in32 lw word_id); [exact Hv|]. intros p Hp. apply In_window in Hp as [H1 H2].
    apply word_id_lt in H1. apply word_id_lt in H2. auto.
  - rewrite map_length, EL. exact HT.
  - rewrite R1 in H. eexists. split; [exact H|]. unfold total, set_cooc. cbn [c_cooc]. rewrite R2, map_length, EL. reflexivity.
Qed.

Lemma file_total_lemma doc lc maxc minc all n :
  tokens (rd_data doc) all -> rd_err doc = false -> fits all -> (1 <= n < length all)%nat ->
  (Z.of_nat (length (distinct (lowered lower lc all))) <= 2 ^ 32)%Z ->
  let T := length (window_pairs_upto (length all - n + 1) n all) in (Z.of_nat T <= 2 ^ 53)%Z ->
  exists c, file doc lc maxc minc (Z.of_nat n) = (c, Ret tt) /\ total c = INR T.
Proof.
  intros Ht He Hf Hn Hv T HT. pose proof (report_ok _ _ Hr) as Hr'.
  pose proof (fs_load_run lower verbose lb doc lc maxc minc all "inc" n {| co_typ := "inc"; co_ma := [] |}
    Hr' Ht He Hf eq_refl ltac:(lia)) as H.
  cbv zeta in H. rewrite fc_emitted_long in H by lia.
  destruct (total_run (map (fun p => (Z.of_nat (raw_id (lowered lower lc all) (fst p)), Z.of_nat (raw_id (lowered lower lc all) (snd p)))) (window_pairs_upto (length all - n + 1) n all))) as (co & R1 & R2).
  - apply (ids_in32 (lowered lower lc all) raw_id); [exact Hv|]. intros p Hp.
    assert (G : forall w, (raw_id (lowered lower lc all) w < length (distinct (lowered lower lc all)) \/ raw_id (lowered lower lc all) w = 0)%nat).
    { intros w. unfold raw_id. destruct (in_dec gostring_eq_dec w (lowered lower lc all)) as [I|I]; [left; now apply word_id_lt|right; reflexivity]. }
    split; apply G.
  - rewrite map_length. exact HT.
  - rewrite R1 in H. eexists. split; [exact H|]. unfold total, set_cooc. cbn [c_cooc]. rewrite R2, map_length. reflexivity.
Qed.

(** The cells, as numbers. *)
Lemma cells_lemma doc lc maxc minc all win :
  tokens (rd_data doc) all -> rd_err doc = false -> fits all ->
  let lw := lowered lower lc all in (Z.of_nat (length (distinct lw)) <= 2 ^ 32)%Z ->
  exists c, mem doc lc maxc minc win = (c, Ret tt) /\
    forall a b, In a lw -> In b lw ->
      count_of c a b = IZR (Z.min (Z.of_nat (pair_count gostring_eq_dec a b (window_pairs (Z.to_nat win) lw))) (2 ^ 53)).
Proof.
  intros Ht He Hf lw Hv.
  destruct (mem_cooc_lemma lower verbose lb doc lc maxc minc all win Hr Ht He Hf Hv) as (c & co & H1 & H2 & H3 & _).
  exists c. split; [exact H1|]. intros a b Ha Hb. specialize (H3 a b Ha Hb). cbv zeta in H3. unfold count_of. rewrite H2.
  fold lw in H3. destruct (pair_count gostring_eq_dec a b (window_pairs (Z.to_nat win) lw)).
  - rewrite H3. reflexivity.
  - destruct H3 as (v & E & _ & V). rewrite E. exact V.
Qed.
End Loads.
