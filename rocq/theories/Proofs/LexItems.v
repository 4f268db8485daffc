(** * LexVec: makeItems *)
From Coq Require Import Reals Lra Sorting.Permutation.
From Flocq Require Import Core BinarySingleNaN.
From Verif.Lib Require Import Go F64 F64Facts ListFacts Tac.
From Verif.Model Require Import Dictionary Encode Cooc Reader ModelUtil Cells Lexvec.
From Verif.Spec Require Import Words Pairs.
From Verif.Proofs Require Import Dictionary Encode Cooc Items.
Local Open Scope Z_scope.

Lemma mget_perm (m m' : list (Z * f64)) k : Permutation m m' -> NoDup (map fst m) -> mget Z.eq_dec k m = mget Z.eq_dec k m'.
Proof.
  intros P N. assert (N' : NoDup (map fst m')) by (eapply Permutation_NoDup; [apply Permutation_map, P|auto]).
  destruct (mget Z.eq_dec k m) as [v|] eqn:E.
  - symmetry. apply In_mget; auto. eapply Permutation_in; [exact P|]. apply mget_In in E. exact E.
  - destruct (mget Z.eq_dec k m') as [v|] eqn:E'; [|reflexivity]. apply mget_In in E'.
    assert (In (k, v) m) as HI by (eapply Permutation_in; [symmetry; exact P|exact E']). apply In_mget with (eqd := Z.eq_dec) in HI; auto. congruence.
Qed.

Lemma mget_key {A} (m : list (Z * A)) k : In k (map fst m) <-> mget Z.eq_dec k m <> None.
Proof.
  split.
  - intros HI E. apply mget_None_notin in E. auto.
  - intros E. destruct (mget Z.eq_dec k m) as [v|] eqn:G; [|congruence]. apply mget_In in G. apply (in_map fst) in G. exact G.
Qed.

Section L.
Variables (flog : f64 -> f64) (fpow : f64 -> f64 -> f64) (d : dict) (typ : string) (smooth logTotal : f64).
Variables (verbose : bool) (lb : Z).
Let rel := rel flog fpow d typ smooth logTotal.

Lemma loop_inv : forall em res res', make_items_loop flog fpow d typ smooth logTotal verbose lb em res = Ret res' -> NoDup (map fst em) ->
  forall k, match mget Z.eq_dec k em with
            | Some f => exists v, rel (k, f) = Ret v /\ mget Z.eq_dec k res' = Some v
            | None => mget Z.eq_dec k res' = mget Z.eq_dec k res
            end.
Proof.
  induction em as [|[k0 f0] em IH]; intros res res' E ND k; [injection E as ->; reflexivity|].
  cbn [map fst] in ND. inversion ND as [|? ? N1 N2]; subst. cbn [make_items_loop] in E.
  destruct (decode_bigram k0) as [u1 u2] eqn:D.
  destruct (calculate_relation _ _ _ _ _ _ _ f0 _) as [v| |] eqn:C; cbn [obind] in E; try discriminate.
  destruct (verbose && _); [discriminate|]. specialize (IH _ _ E N2 k). cbn [mget]. destruct (Z.eq_dec k k0) as [->|Hne].
  - exists v. split; [unfold rel, Items.rel; cbn [fst snd]; rewrite D; exact C|].
    assert (Enone : mget Z.eq_dec k0 em = None) by (apply mget_None_notin; auto).
    rewrite Enone in IH. rewrite IH, mget_mset_eq. reflexivity.
  - destruct (mget Z.eq_dec k em); [exact IH|]. rewrite IH, mget_mset_neq; auto.
Qed.
End L.

Lemma items_res flog fpow d total typ smooth verbose lb m em res : Permutation em m -> ma_wf m ->
  lex_make_items flog fpow d total typ smooth verbose lb em = Ret res ->
  forall k, match mget Z.eq_dec k m with
            | Some f => exists v, rel flog fpow d typ smooth (flog (fpow (f_of_Z total) smooth)) (k, f) = Ret v /\ mget Z.eq_dec k res = Some v
            | None => mget Z.eq_dec k res = None
            end.
Proof.
  intros P W E k. pose proof (ma_wf_perm _ _ P W) as W'. pose proof (loop_inv _ _ _ _ _ _ _ _ _ _ _ E (proj1 W') k) as H.
  rewrite (mget_perm _ _ k P (proj1 W')) in H. exact H.
Qed.

Definition known (typ : string) : Prop := In typ ["ppmi"; "pmi"; "co"; "logco"]%string.

Lemma id_freq_total calls a : 0 <= a -> exists n, dict_id_freq (fold_left dict_add calls dict_new) a = Ret n.
Proof.
  intros Ha. rewrite dict_adds_concat. pose proof (dict_repr_of (concat calls)) as R.
  destruct (Z.le_gt_cases (Z.of_nat (length (distinct (concat calls)))) a).
  - exists 0%nat. apply (repr_id_freq_ge _ _ R). auto.
  - destruct (nth_error (distinct (concat calls)) (Z.to_nat a)) as [w|] eqn:E.
    + exists (occurrences w (concat calls)). rewrite <- (Z2Nat.id a) by auto. apply (repr_id_freq _ _ R). exact E.
    + apply nth_error_None in E. lia.
Qed.

Lemma rel_known flog fpow calls typ smooth logTotal a b f n1 n2 :
  let d := fold_left dict_add calls dict_new in
  in32 a -> in32 b -> a <= b -> dict_id_freq d a = Ret n1 -> dict_id_freq d b = Ret n2 ->
  rel flog fpow d typ smooth logTotal (encode_bigram a b, f) =
  if String.eqb typ rel_ppmi then Ret (if feq f fzero then fzero
     else let v := pmi_value flog fpow smooth n1 n2 f logTotal in if flt v fzero then fzero else v)
  else if String.eqb typ rel_pmi then Ret (if feq f fzero then f_of_Z 1 else pmi_value flog fpow smooth n1 n2 f logTotal)
  else if String.eqb typ rel_co then Ret f
  else if String.eqb typ rel_logco then Ret (flog f)
  else Err "invalid measure type".
Proof.
  intros d Ha Hb Hab E1 E2. unfold rel. cbn [fst snd]. rewrite decode_encode by auto.
  rewrite Z.min_l, Z.max_r by lia. rewrite !wrap_int_small by (unfold in32 in *; lia).
  unfold calculate_relation. rewrite E1, E2. cbn [obind]. destruct (String.eqb _ _); [destruct (feq _ _); reflexivity|].
  destruct (String.eqb _ _); [destruct (feq _ _); reflexivity|]. reflexivity.
Qed.

Lemma known_cases typ : known typ -> exists A B C D, String.eqb typ rel_ppmi = A /\ String.eqb typ rel_pmi = B /\ String.eqb typ rel_co = C /\ String.eqb typ rel_logco = D /\ A || B || C || D = true.
Proof.
  intros H. do 4 eexists. do 4 (split; [reflexivity|]). unfold known in H. cbn [In] in H.
  destruct H as [<-|[<-|[<-|[<-|[]]]]]; reflexivity.
Qed.

Lemma items_run flog fpow calls total typ smooth verbose lb m em : let d := fold_left dict_add calls dict_new in
  known typ -> verbose = false \/ lb <> 0 -> Permutation em m -> ma_wf m ->
  exists res, lex_make_items flog fpow d total typ smooth verbose lb em = Ret res.
Proof.
  intros d K Hv P W. pose proof (ma_wf_perm _ _ P W) as W'.
  destruct (loop_run flog fpow d typ smooth (flog (fpow (f_of_Z total) smooth)) verbose lb Hv em []) as (res & E & _); [|apply W'|eauto].
  apply Forall_forall. intros [k f] Hin. destruct (proj2 W' k (in_map fst _ _ Hin)) as (a & b & Ha & Hb & Hab & ->).
  destruct (id_freq_total calls a) as (n1 & E1); [unfold in32 in *; lia|]. destruct (id_freq_total calls b) as (n2 & E2); [unfold in32 in *; lia|].
  rewrite (rel_known flog fpow calls typ smooth _ a b f n1 n2 Ha Hb Hab E1 E2).
  destruct (known_cases typ K) as (A & B & C & D & -> & -> & -> & -> & H). destruct A, B, C, D; try discriminate; eauto.
Qed.

Lemma items_unknown flog fpow d total typ smooth verbose lb em : ~ known typ -> em <> [] ->
  lex_make_items flog fpow d total typ smooth verbose lb em = Err "invalid measure type".
Proof.
  intros K Hne. destruct em as [|[k f] em]; [congruence|]. unfold lex_make_items. apply loop_err. unfold rel. cbn [fst snd].
  destruct (decode_bigram k). unfold calculate_relation. unfold known in K. cbn [In] in K.
  destruct (String.eqb_spec typ rel_ppmi) as [->|]; [exfalso; apply K; auto|].
  destruct (String.eqb_spec typ rel_pmi) as [->|]; [exfalso; apply K; auto|].
  destruct (String.eqb_spec typ rel_co) as [->|]; [exfalso; apply K; auto|].
  destruct (String.eqb_spec typ rel_logco) as [->|]; [exfalso; apply K; auto 6|]. reflexivity.
Qed.
