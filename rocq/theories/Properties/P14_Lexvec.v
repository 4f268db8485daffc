(** * C47-C48: LexVec relation values and updates *)
From Coq Require Import Reals Lia Sorting.Permutation.
From Verif.Lib Require Import Go F64 F64Facts.
From Verif.Model Require Import Dictionary Encode Cooc Reader ModelUtil Matrix Cells Lexvec.
From Verif.Spec Require Import Rows Training Cells Pairs.
From Verif.Proofs Require Dictionary Encode Cooc Items LexItems Lexvec.
Local Open Scope Z_scope.

(** The relation value of a pair with count [f], of words with frequencies [n1] (smaller id) and
    [n2] (larger id), in a text of [total] words. *)
Definition pmi (log : f64 -> f64) (pow : f64 -> f64 -> f64) (smooth : f64) (total : Z) (n1 n2 : nat) (f : f64) : f64 :=
  fadd (fsub (fsub (log f) (log (f_of_Z (Z.of_nat n1)))) (log (pow (f_of_Z (Z.of_nat n2)) smooth)))
       (log (pow (f_of_Z total) smooth)).
Definition relation (log : f64 -> f64) (pow : f64 -> f64 -> f64) (typ : string) (smooth : f64) (total : Z) (n1 n2 : nat) (f : f64)
  : option f64 :=
  if String.eqb typ "co" then Some f
  else if String.eqb typ "logco" then Some (log f)
  else if String.eqb typ "pmi" then Some (if feq f fzero then f_of_Z 1 else pmi log pow smooth total n1 n2 f)
  else if String.eqb typ "ppmi" then
    Some (if feq f fzero then fzero
          else let v := pmi log pow smooth total n1 n2 f in if flt v fzero then fzero else v)
  else None.

(** C47. [c] is the matrix after any sequence of Add calls with ids below 2^32, [em] its entries in
    any iteration order, [d] any dictionary built by Add calls. The result has one value per
    co-occurring pair, and nothing else. *)
Theorem C47_relation_values : forall log pow calls total typ smooth verbose lb ctyp c0 adds em,
  let d := fold_left dict_add calls dict_new in
  In typ ["ppmi"; "pmi"; "co"; "logco"]%string ->
  verbose = false \/ lb <> 0 ->
  co_new ctyp = Ret c0 -> Forall (fun p => 0 <= fst p < 2 ^ 32 /\ 0 <= snd p < 2 ^ 32) adds ->
  let c := fst (for_each (fun c p => co_add c (fst p) (snd p)) c0 adds) in
  Permutation em (co_ma c) ->
  exists res, lex_make_items log pow d total typ smooth verbose lb em = Ret res /\
    (forall k, In k (map fst res) <-> In k (map fst (co_ma c))) /\
    forall a b, 0 <= a -> a <= b -> b < 2 ^ 32 ->
      match mget Z.eq_dec (encode_bigram a b) (co_ma c) with
      | None => mget Z.eq_dec (encode_bigram a b) res = None
      | Some f => exists n1 n2, dict_id_freq d a = Ret n1 /\ dict_id_freq d b = Ret n2 /\
                  mget Z.eq_dec (encode_bigram a b) res = relation log pow typ smooth total n1 n2 f
      end.
Proof.
  intros log pow calls total typ smooth verbose lb ctyp c0 adds em d HK Hv E HF c P.
  pose proof (Items.adds_wf ctyp c0 adds E HF) as W. fold c in W.
  destruct (LexItems.items_run log pow calls total typ smooth verbose lb (co_ma c) em HK Hv P W) as (res & ER).
  exists res. split; [exact ER|].
  pose proof (LexItems.items_res log pow d total typ smooth verbose lb (co_ma c) em res P W ER) as HR. split.
  - intros k. rewrite !LexItems.mget_key. specialize (HR k). destruct (mget Z.eq_dec k (co_ma c)).
    + destruct HR as (v & _ & ->). split; discriminate.
    + rewrite HR. tauto.
  - intros a b Ha Hab Hb. specialize (HR (encode_bigram a b)). destruct (mget Z.eq_dec (encode_bigram a b) (co_ma c)) as [f|]; [|exact HR].
    destruct HR as (v & HV & ->).
    destruct (LexItems.id_freq_total calls a) as (n1 & E1); [assumption|].
    destruct (LexItems.id_freq_total calls b) as (n2 & E2); [lia|].
    exists n1, n2. split; [exact E1|]. split; [exact E2|]. unfold d in HV.
    rewrite (LexItems.rel_known log pow calls typ smooth _ a b f n1 n2) in HV; try assumption; try (unfold Cooc.in32; lia).
    unfold relation. destruct HK as [<-|[<-|[<-|[<-|[]]]]]; 
      apply (f_equal (fun o => match o with Ret a => Some a | _ => None end)) in HV; symmetry; exact HV.
Qed.
Print Assumptions C47_relation_values.

(** C47. The iteration order does not matter. *)
Theorem C47_order_independent : forall log pow calls total typ smooth verbose lb ctyp c0 adds em em' res res',
  let d := fold_left dict_add calls dict_new in
  co_new ctyp = Ret c0 -> Forall (fun p => 0 <= fst p < 2 ^ 32 /\ 0 <= snd p < 2 ^ 32) adds ->
  let c := fst (for_each (fun c p => co_add c (fst p) (snd p)) c0 adds) in
  Permutation em (co_ma c) -> Permutation em' (co_ma c) ->
  lex_make_items log pow d total typ smooth verbose lb em = Ret res ->
  lex_make_items log pow d total typ smooth verbose lb em' = Ret res' ->
  forall k, lookup0 res k = lookup0 res' k.
Proof.
  intros log pow calls total typ smooth verbose lb ctyp c0 adds em em' res res' d E HF c P P' ER ER' k.
  pose proof (Items.adds_wf ctyp c0 adds E HF) as W. fold c in W.
  pose proof (LexItems.items_res log pow d total typ smooth verbose lb (co_ma c) em res P W ER k) as H.
  pose proof (LexItems.items_res log pow d total typ smooth verbose lb (co_ma c) em' res' P' W ER' k) as H'.
  unfold lookup0. destruct (mget Z.eq_dec k (co_ma c)).
  - destruct H as (v & Hv & ->), H' as (v' & Hv' & ->). congruence.
  - rewrite H, H'. reflexivity.
Qed.
Print Assumptions C47_order_independent.

(** C47. With ppmi no value is negative. *)
Theorem C47_ppmi_never_negative : forall log pow calls total smooth verbose lb ctyp c0 adds em res,
  let d := fold_left dict_add calls dict_new in
  co_new ctyp = Ret c0 -> Forall (fun p => 0 <= fst p < 2 ^ 32 /\ 0 <= snd p < 2 ^ 32) adds ->
  let c := fst (for_each (fun c p => co_add c (fst p) (snd p)) c0 adds) in
  Permutation em (co_ma c) ->
  lex_make_items log pow d total "ppmi" smooth verbose lb em = Ret res ->
  forall k, flt (lookup0 res k) fzero = false.
Proof.
  intros log pow calls total smooth verbose lb ctyp c0 adds em res d E HF c P ER k.
  pose proof (Items.adds_wf ctyp c0 adds E HF) as W. fold c in W.
  pose proof (LexItems.items_res log pow d total "ppmi" smooth verbose lb (co_ma c) em res P W ER k) as H.
  unfold lookup0. destruct (mget Z.eq_dec k (co_ma c)) as [f|] eqn:G; [|rewrite H; reflexivity].
  destruct H as (v & Hv & ->). destruct (proj2 W k) as (a & b & Ha & Hb & Hab & ->).
  { apply LexItems.mget_key. congruence. }
  destruct (LexItems.id_freq_total calls a) as (n1 & E1); [apply Ha|].
  destruct (LexItems.id_freq_total calls b) as (n2 & E2); [apply Hb|].
  unfold d in Hv. rewrite (LexItems.rel_known log pow calls "ppmi" smooth _ a b f n1 n2) in Hv by assumption.
  cbn [String.eqb rel_ppmi] in Hv. change (String.eqb "ppmi" rel_ppmi) with true in Hv. cbn iota in Hv. cbv zeta in Hv.
  apply (f_equal (fun o => match o with Ret a => a | _ => fzero end)) in Hv. cbn beta iota in Hv. rewrite <- Hv.
  destruct (feq f fzero); [reflexivity|]. destruct (flt _ fzero) eqn:L; [reflexivity|exact L].
Qed.
Print Assumptions C47_ppmi_never_negative.

(** C47. With co the values are the counts: exactly the number of additions of the pair. *)
Theorem C47_co_is_the_count : forall log pow calls total smooth verbose lb c0 adds em,
  let d := fold_left dict_add calls dict_new in
  verbose = false \/ lb <> 0 ->
  co_new "inc" = Ret c0 -> Forall (fun p => 0 <= fst p < 2 ^ 32 /\ 0 <= snd p < 2 ^ 32) adds ->
  Z.of_nat (length adds) <= 2 ^ 53 ->
  Permutation em (co_ma (fst (for_each (fun c p => co_add c (fst p) (snd p)) c0 adds))) ->
  exists res, lex_make_items log pow d total "co" smooth verbose lb em = Ret res /\
    forall a b, 0 <= a < 2 ^ 32 -> 0 <= b < 2 ^ 32 ->
      let v := lookup0 res (encode_bigram a b) in
      is_fin v = true /\ f2r v = IZR (Z.of_nat (pair_count Z.eq_dec a b adds)).
Proof.
  intros log pow calls total smooth verbose lb c0 adds em d Hv E HF HN P.
  destruct (C47_relation_values log pow calls total "co" smooth verbose lb "inc" c0 adds em ltac:(cbn; auto) Hv E HF P) as (res & ER & _ & HR).
  exists res. split; [exact ER|]. fold d in HR.
  destruct (Cooc.inc_counts_lemma adds HF) as (c0' & c & F1 & F2 & F3 & _).
  rewrite E in F1. injection F1 as <-. rewrite F2 in HR. cbn [fst] in HR.
  assert (PL : forall a b, (pair_count Z.eq_dec a b adds <= length adds)%nat).
  { intros a b. unfold pair_count. clear. induction adds as [|p l IH]; [apply Nat.le_refl|]. cbn [filter length]. destruct (same_pair _ _ _); cbn [length]; lia. }
  assert (HH : forall a b, 0 <= a -> a <= b -> b < 2 ^ 32 -> let v := lookup0 res (encode_bigram a b) in
      is_fin v = true /\ f2r v = IZR (Z.of_nat (pair_count Z.eq_dec a b adds))).
  { intros a b Ha Hab Hb v. specialize (HR a b Ha Hab Hb). specialize (F3 a b ltac:(unfold Cooc.in32; lia) ltac:(unfold Cooc.in32; lia)).
    specialize (PL a b). unfold v, lookup0. destruct (pair_count Z.eq_dec a b adds) as [|n].
    - rewrite F3 in HR. rewrite HR. split; reflexivity.
    - destruct F3 as (f & G & Ff & Ef). rewrite G in HR. destruct HR as (n1 & n2 & _ & _ & ->). cbn [relation String.eqb].
      change (relation log pow "co" smooth total n1 n2 f) with (Some f). split; [exact Ff|]. rewrite Ef. apply f_equal, Z.min_l.
      apply Nat2Z.inj_le in PL. apply Z.le_trans with (1 := PL). exact HN. }
  intros a b Ha Hb. destruct (Z.le_ge_cases a b); [apply HH; lia|].
  rewrite (Encode.encode_bigram_sym a b).
  replace (pair_count Z.eq_dec a b adds) with (pair_count Z.eq_dec b a adds); [apply HH; lia|].
  unfold pair_count. f_equal. apply filter_ext. intros [u v]. cbn.
  destruct (Z.eq_dec a u), (Z.eq_dec b v), (Z.eq_dec a v), (Z.eq_dec b u); reflexivity.
Qed.
Print Assumptions C47_co_is_the_count.

(** C47. An unknown relation name is an error exactly when there is a co-occurring pair. *)
Theorem C47_unknown_relation : forall log pow d total typ smooth verbose lb em,
  ~ In typ ["ppmi"; "pmi"; "co"; "logco"]%string ->
  (em = [] -> lex_make_items log pow d total typ smooth verbose lb em = Ret []) /\
  (em <> [] -> exists e, lex_make_items log pow d total typ smooth verbose lb em = Err e).
Proof.
  intros log pow d total typ smooth verbose lb em K. split.
  - intros ->. reflexivity.
  - intros Hne. eexists. apply LexItems.items_unknown; assumption.
Qed.
Print Assumptions C47_unknown_relation.

(** With "log x = x" and "pow x y = x": text of 4 words, frequencies 2 and 1, the pair {0,1} three
    times: 3 - 2 - 1 + 4 = 4. *)
Example C47_case :
  let d := dict_add dict_new [bs "a"; bs "b"; bs "a"; bs "c"] in
  let c := fst (for_each (fun c p => co_add c (fst p) (snd p)) {| co_typ := "inc"; co_ma := [] |} [(0, 1); (1, 0); (0, 1); (2, 2)]) in
  match lex_make_items (fun x => x) (fun x _ => x) d 4 "ppmi" (f_of_Z 1) false 0 (rev (co_ma c)) with
  | Ret res => map fshow [lookup0 res (encode_bigram 1 0); lookup0 res (encode_bigram 2 2); lookup0 res (encode_bigram 0 2)]
  | _ => []
  end = map fshow [f_of_Z 4; f_of_Z 3; f_of_Z 0].
Proof. vm_compute. reflexivity. Qed.

(** C48. One update of rows [a] and [b] ([lex_step] in Spec/Cells.v): for different rows both are
    computed from the old values of both; for the same row each component is decreased twice. *)
Theorem C48_update : forall dim lr rows a b f,
  all_len dim rows -> (a < length rows)%nat -> (b < length rows)%nat ->
  let x := nth a rows [] in let y := nth b rows [] in
  let d := fmul (fsub (dot x y) f) lr in
  lex_update (Z.of_nat dim) lr (Z.of_nat a) (Z.of_nat b) f (of_rows dim rows) =
  Ret (of_rows dim (if Nat.eqb a b then upd rows a (self_row d x)
                    else upd2 rows a b (step_row d x y) (step_row d y x))).
Proof. intros. apply Lexvec.update_lemma; assumption. Qed.
Print Assumptions C48_update.

(** C48. trainOne on a document of ids below [V], with 2V rows: never panics, and performs exactly
    the updates [lex_steps]: for every context word [u] of the word [w] at [pos] the pair of word
    rows (w, u), then [neg] pairs of w with the context row of a drawn word. *)
Theorem C48_train_one : forall dim lr items V doc pos neg window next rows,
  1 <= Z.of_nat V < 2 ^ 63 -> Forall (fun id => (id < V)%nat) doc -> (pos < length doc)%nat ->
  1 <= window < 2 ^ 63 -> all_len dim rows -> length rows = (2 * V)%nat ->
  let val a b := lookup0 items (encode_bigram (Z.of_nat a) (Z.of_nat b)) in
  let ctx := context (Z.of_nat pos) (window - lcg next mod window) (length doc) in
  let steps := lex_steps val V neg (nth pos doc 0%nat) (map (fun c => nth (Z.to_nat c) doc 0%nat) ctx) (lcg next) in
  lex_train_one (Z.of_nat dim) lr items (Z.of_nat V) window (Z.of_nat neg) (map Z.of_nat doc) (Z.of_nat pos) (next, of_rows dim rows) =
  Ret (Nat.iter (1 + length ctx * neg) lcg next, of_rows dim (fold_left (lex_step lr) steps rows)).
Proof. intros. apply Lexvec.train_one_lemma; assumption. Qed.
Print Assumptions C48_train_one.

(** C48. The rows of these updates: the first is the row of the word itself, the second the row of a
    context word or a context row; all are in range, and all other rows keep their contents. *)
Theorem C48_rows_in_range : forall val V neg w us next,
  1 <= Z.of_nat V < 2 ^ 63 -> (w < V)%nat -> Forall (fun u => (u < V)%nat) us ->
  Forall (fun s => fst (fst s) = w /\ (In (snd (fst s)) us \/ (V <= snd (fst s) < 2 * V)%nat)) (lex_steps val V neg w us next).
Proof.
  intros val V neg w us next HV Hw. revert next. induction us as [|u us IH]; intros next HF; [constructor|]. inversion HF; subst. cbn [lex_steps].
  constructor; [cbn; auto|]. apply Forall_app. split.
  - apply Forall_forall. intros s Hs. apply in_map_iff in Hs. destruct Hs as (k & <- & Hk). apply in_map_iff in Hk.
    destruct Hk as (i & <- & _). cbn [fst snd]. split; [reflexivity|]. right. pose proof (Lexvec.draw_lt [] V HV next i). lia.
  - eapply Forall_impl; [|apply IH; assumption]. cbn beta. intros s (A & [B|B]); split; auto. left; right; exact B.
Qed.
Print Assumptions C48_rows_in_range.

Theorem C48_other_rows_unchanged : forall lr q steps rows,
  (forall s, In s steps -> q <> fst (fst s) /\ q <> snd (fst s)) ->
  nth q (fold_left (lex_step lr) steps rows) [] = nth q rows [].
Proof. exact Lexvec.fold_step_frame. Qed.
Print Assumptions C48_other_rows_unchanged.

(** Dimension 1, rows 2 and 3, value 5, learning rate 1: diff = 1, new rows -1 and 1; a row paired
    with itself (2*2-5 = -1): 2 + 2 + 2 = 6. The document [1; 0] with one sample: from state 1 with
    window 1 the word 0 at position 1 is trained with word 1 and with the context row of a draw. *)
Example C48_case :
  let n z := f_of_Z z in
  (match lex_update 1 (n 1) 0 1 (n 5) (of_rows 1 [[n 2]; [n 3]]) with Ret m => map fshow (m_array m) | _ => [] end =
   map fshow [n (-1); n 1]) /\
  (match lex_update 1 (n 1) 0 0 (n 5) (of_rows 1 [[n 2]; [n 3]]) with Ret m => map fshow (m_array m) | _ => [] end =
   map fshow [n 6; n 3]) /\
  map fst (lex_steps (fun _ _ => n 0) 2 1 0 [1%nat] (lcg rand_init)) = [(0, 1); (0, 2 + draw (lcg rand_init) 2 0)]%nat.
Proof. vm_compute. auto. Qed.
