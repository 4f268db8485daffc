(** * C96: similarities computed from a saved model *)
From Coq Require Import Lia Reals Lra List ZArith Sorting.Permutation Sorting.Sorted.
From Flocq Require Import Core BinarySingleNaN.
From Verif.Lib Require Import Go F64 F64Facts.
From Verif.Spec Require Import Words Tokens Lines Rows Saved Decimal Cosine Search SavedSearch.
From Verif.Model Require Import Dictionary Matrix Reader Embedding FmtFloat ParseFloat Vector Search.
From Verif.Proofs Require Dictionary Embedding FmtFloat ParseFloat SavedCosine SavedSearch Search.
Import ListNotations.
Local Open Scope Z_scope.

(** [loaded_from pf ws dim rows embs]: a model with the words of [ws] and the vectors [rows] was
    saved (to a destination that stores everything) and [embs] was loaded from that file. *)
Definition loaded_from (pf : gostring -> option f64) (ws : list gostring) (dim : nat) (rows : list (list f64)) (embs : list embedding) : Prop :=
  exists cut verbose lb, (forall t, concat (cut t) = t) /\ (verbose = false \/ lb <> 0) /\
  load pf (file_of (fst (save good_writer cut (dict_add dict_new ws) (of_rows dim rows) verbose lb []))) = Ret embs.

(** The lines Save writes can be read by Load (C55, C56), and the vectors are storable. *)
Definition saveable (ws : list gostring) (dim : nat) (rows : list (list f64)) : Prop :=
  (1 <= dim)%nat /\ Z.of_nat dim <= 2 ^ 20 /\ Forall (fun w => w <> [] /\ ~ has_space w) ws /\
  all_len dim rows /\ length rows = length (distinct ws) /\ Forall storable rows /\
  Forall2 (fun w v => Z.of_nat (length (saved_line w v)) <= 65536) (distinct ws) rows.

(** C96. Two vectors written with six digits and read back: the similarity computed from the numbers
    read differs from the true cosine of the original vectors by at most [slack]. *)
Theorem C96_similarity : forall pf u v u' v', reads_decimals pf -> length u = length v -> Z.of_nat (length u) <= 2 ^ 20 ->
  storable u -> storable v ->
  Forall2 (fun x y => pf (fmt_f x) = Some y) u u' -> Forall2 (fun x y => pf (fmt_f x) = Some y) v v' ->
  exists r, cosine u' v' (norm u') (norm v') = Ret r /\ is_fin r = true /\ (Rabs (f2r r - cos_r u v) <= slack u v)%R.
Proof.
  intros pf u v u' v' RD HL HN (Su & Tu) (Sv & Tv) Fu Fv. unfold slack. rewrite FmtFloat.pow10_6 in *.
  apply (SavedCosine.saved_cosine pf u v u' v'); auto. rewrite HL. exact Tv.
Qed.
Print Assumptions C96_similarity.

Section Search.
  Variables (pf : gostring -> option f64) (ws : list gostring) (dim : nat) (rows : list (list f64)) (embs : list embedding).
  Hypothesis RD : reads_decimals pf.
  Hypothesis HS : saveable ws dim rows.
  Hypothesis HE : loaded_from pf ws dim rows embs.

  Lemma table : NoDup (distinct ws) /\ Forall (fun w => w <> []) (distinct ws) /\ map e_word embs = distinct ws /\
    Forall2 (fun v e => e_dim e = Z.of_nat dim /\ Forall2 (fun x y => pf (fmt_f x) = Some y) v (e_vec e) /\ e_norm e = euclid (e_vec e)) rows embs /\
    Forall (fun v => length v = dim) rows.
  Proof.
    destruct HS as (Hd & _ & HW & HA & HL & _ & HB). destruct HE as (cut & vb & lb & Hc & Hv & Ee).
    destruct (Embedding.save_load pf cut ws dim rows vb lb RD Hc Hv Hd HW HA HL HB) as (embs' & E' & M & F). rewrite E' in Ee. injection Ee as ->.
    split; [apply Dictionary.NoDup_distinct|]. split; [|auto]. apply Forall_forall. intros w Hw. rewrite Forall_forall in HW. apply HW. exact (proj1 (Dictionary.In_distinct _ _) Hw).
  Qed.

  (** C96. Searching the loaded model for the neighbours of its word number [i]: every row of the
      answer that is not blank is another word, and its similarity is the true cosine of the two
      original vectors up to [slack]. *)
  Theorem C96_rows : forall i w u k out, nth_error (distinct ws) i = Some w -> nth_error rows i = Some u -> 1 <= k ->
    search_internal embs w k = Ret out -> forall m, In m out -> n_word m <> [] ->
    exists j v, j <> i /\ nth_error (distinct ws) j = Some (n_word m) /\ nth_error rows j = Some v /\
      is_fin (n_sim m) = true /\ (Rabs (f2r (n_sim m) - cos_r u v) <= slack u v)%R.
  Proof.
    destruct table as (T1 & T2 & T3 & T4 & T5). destruct HS as (_ & HN & _ & _ & _ & HT & _).
    intros i w u k out Hw Hu Hk E m Hm Nm.
    destruct (SavedSearch.tab_search pf (distinct ws) dim rows embs RD T1 T2 T3 T4 T5 HN HT i w k out Hw Hk E) as (ei & Ei & sel & (rest & P & _) & ->).
    apply in_app_or in Hm. destruct Hm as [Hm|Hm]; [|apply repeat_spec in Hm; subst m; contradiction].
    destruct (SavedSearch.ranked_in _ _ Hm) as (c & Hc & W & V).
    destruct (SavedSearch.tab_cand (distinct ws) embs T3 i w ei c Ei Hw) as (j & ej & Nj & Ej & W' & Wj & V' & _); [apply (Permutation_in _ P), in_or_app; auto|].
    destruct (SavedSearch.tab_similarity pf (distinct ws) dim rows embs RD T3 T4 T5 HN HT i j ei ej Ei Ej) as (_ & u' & v & Hu' & Hv & Fs & Cs).
    rewrite Hu in Hu'. injection Hu' as <-. exists j, v. rewrite W, W', V, V'. auto.
  Qed.

  (** C96. The answer is in the order of the true cosines, up to the two slacks. *)
  Theorem C96_order : forall i w u k out, nth_error (distinct ws) i = Some w -> nth_error rows i = Some u -> 1 <= k ->
    search_internal embs w k = Ret out -> forall a b ma mb ja jb va vb, (a < b)%nat ->
    nth_error out a = Some ma -> nth_error out b = Some mb -> n_word mb <> [] ->
    nth_error (distinct ws) ja = Some (n_word ma) -> nth_error rows ja = Some va ->
    nth_error (distinct ws) jb = Some (n_word mb) -> nth_error rows jb = Some vb ->
    (cos_r u vb <= cos_r u va + slack u va + slack u vb)%R.
  Proof.
    destruct table as (T1 & T2 & T3 & T4 & T5). destruct HS as (_ & HN & _ & _ & _ & HT & _).
    intros i w u k out Hw Hu Hk E a b ma mb ja jb va vb Hab Ha Hb Nb Wa Ra Wb Rb.
    destruct (SavedSearch.tab_search pf (distinct ws) dim rows embs RD T1 T2 T3 T4 T5 HN HT i w k out Hw Hk E) as (ei & Ei & sel & (rest & P & SS & _) & Eo).
    rewrite Eo in Ha, Hb.
    assert (Lb : (b < length (ranked sel))%nat).
    { destruct (Nat.lt_ge_cases b (length (ranked sel))) as [L|L]; [exact L|]. rewrite nth_error_app2 in Hb by exact L. apply nth_error_In, repeat_spec in Hb. subst mb. contradiction. }
    rewrite nth_error_app1 in Ha, Hb by lia.
    assert (RN : forall q m, nth_error (ranked sel) q = Some m -> exists c, nth_error sel q = Some c /\ n_word m = fst c /\ n_sim m = snd c).
    { intros q m Hq. unfold ranked in Hq. rewrite nth_error_map in Hq. destruct (nth_error (combine (seq 0 (length sel)) sel) q) as [(x & c)|] eqn:Ec; [|discriminate Hq].
      injection Hq as <-. cbn [n_word n_sim fst snd]. exists c. split; [|auto]. assert (Hl : (q < length sel)%nat) by (apply nth_error_Some in Ec || (assert (nth_error (combine (seq 0 (length sel)) sel) q <> None) as X by congruence; apply nth_error_Some in X; rewrite combine_length, seq_length in X; lia)).
      destruct (nth_error sel q) as [c'|] eqn:Es; [|apply nth_error_None in Es; lia]. f_equal.
      pose proof (nth_error_nth _ _ (0%nat, c) Ec) as N1. rewrite combine_nth in N1 by (rewrite seq_length; reflexivity). injection N1 as _ N1. rewrite <- N1. symmetry. apply nth_error_nth. exact Es. }
    destruct (RN a ma Ha) as (ca & Sa & Na & Va). destruct (RN b mb Hb) as (cb & Sb & Nbb & Vb).
    assert (LE : fle (snd cb) (snd ca) = true).
    { clear - SS Hab Sa Sb. revert a b Hab Sa Sb. induction SS as [|x l SS IH HF]; intros a b Hab Sa Sb; [destruct a; discriminate Sa|].
      destruct b as [|b]; [lia|]. cbn [nth_error] in Sb. destruct a as [|a].
      - injection Sa as <-. rewrite Forall_forall in HF. apply HF. exact (nth_error_In _ _ Sb).
      - apply (IH a b); auto; lia. }
    assert (CB : forall c j v, In c sel -> nth_error (distinct ws) j = Some (fst c) -> nth_error rows j = Some v ->
      is_fin (snd c) = true /\ (Rabs (f2r (snd c) - cos_r u v) <= slack u v)%R).
    { intros c j v Hc Wj Rj. destruct (SavedSearch.tab_cand (distinct ws) embs T3 i w ei c Ei Hw) as (j' & ej & _ & Ej & Wc & Wj' & Vc & _); [apply (Permutation_in _ P), in_or_app; auto|].
      assert (j' = j). { rewrite Wc in Wj. apply (proj1 (NoDup_nth_error (distinct ws)) T1); [apply nth_error_Some; congruence|congruence]. } subst j'.
      destruct (SavedSearch.tab_similarity pf (distinct ws) dim rows embs RD T3 T4 T5 HN HT i j ei ej Ei Ej) as (_ & u' & v' & Hu' & Hv' & Fs & Cs).
      rewrite Hu in Hu'. injection Hu' as <-. rewrite Rj in Hv'. injection Hv' as <-. rewrite Vc. auto. }
    rewrite Na in Wa. rewrite Nbb in Wb.
    destruct (CB ca ja va (nth_error_In _ _ Sa) Wa Ra) as (Fa & Ca). destruct (CB cb jb vb (nth_error_In _ _ Sb) Wb Rb) as (Fb & Cb).
    apply fle_spec in LE. destruct LE as (_ & _ & LE). rewrite !fkey_fin in LE by auto. apply Rabs_le_inv in Ca. apply Rabs_le_inv in Cb. lra.
  Qed.

  (** C96. A word that is missing from the answer was not similar enough: its cosine is at most
      [slack], or k words were found and none of their cosines is smaller by more than the slacks. *)
  Theorem C96_missing : forall i w u k out, nth_error (distinct ws) i = Some w -> nth_error rows i = Some u -> 1 <= k ->
    search_internal embs w k = Ret out -> forall l wl vl, l <> i -> nth_error (distinct ws) l = Some wl -> nth_error rows l = Some vl ->
    ~ In wl (map n_word out) ->
    (cos_r u vl <= slack u vl)%R \/
    (Z.of_nat (length out) = k /\ forall m j v, In m out -> nth_error (distinct ws) j = Some (n_word m) -> nth_error rows j = Some v ->
       (cos_r u vl <= cos_r u v + slack u v + slack u vl)%R).
  Proof.
    destruct table as (T1 & T2 & T3 & T4 & T5). destruct HS as (_ & HN & _ & _ & _ & HT & _).
    intros i w u k out Hw Hu Hk E l wl vl Nl Wl Rl Miss.
    destruct (SavedSearch.tab_search pf (distinct ws) dim rows embs RD T1 T2 T3 T4 T5 HN HT i w k out Hw Hk E) as (ei & Ei & sel & (rest & P & _ & BR & BL) & Eo).
    assert (Hel : exists el, nth_error embs l = Some el /\ e_word el = wl).
    { rewrite <- T3, nth_error_map in Wl. destruct (nth_error embs l) as [el|]; [|discriminate Wl]. injection Wl as Wl. eauto. }
    destruct Hel as (el & El & Wel).
    destruct (SavedSearch.tab_similarity pf (distinct ws) dim rows embs RD T3 T4 T5 HN HT i l ei el Ei El) as (_ & u' & v' & Hu' & Hv' & Fl & Cl).
    rewrite Hu in Hu'. injection Hu' as <-. rewrite Rl in Hv'. injection Hv' as <-. apply Rabs_le_inv in Cl.
    destruct (fgt (similarity ei el) fzero) eqn:G.
    2:{ left. destruct (Rlt_or_le 0 (f2r (similarity ei el))) as [Z|Z]; [|lra]. exfalso.
        assert (fgt (similarity ei el) fzero = true) as G'. { apply fgt_spec. split; [destruct (similarity ei el); try discriminate Fl; reflexivity|]. split; [reflexivity|]. rewrite !fkey_fin by (auto; reflexivity). rewrite fzero_r. exact Z. }
        congruence. }
    right. assert (Ic : In (wl, similarity ei el) (candidates embs ei [w])).
    { unfold candidates. apply in_map_iff. exists el. rewrite Wel. split; [reflexivity|]. apply filter_In. split; [exact (nth_error_In _ _ El)|]. rewrite G, andb_true_r, Wel.
      destruct (in_dec gostring_eq_dec wl [w]) as [[->|[]]|]; [|reflexivity]. exfalso. apply Nl. apply (proj1 (NoDup_nth_error (distinct ws)) T1); [apply nth_error_Some; congruence|congruence]. }
    assert (Hr : In (wl, similarity ei el) rest).
    { apply (Permutation_in _ (Permutation_sym P)), in_app_or in Ic. destruct Ic as [Ic|Ic]; [exfalso|exact Ic]. apply Miss. rewrite Eo, map_app. apply in_or_app. left.
      assert (map n_word (ranked sel) = map fst sel) as ->.
      { unfold ranked. rewrite map_map. cbn [n_word]. rewrite <- (map_map snd fst). f_equal. clear. generalize 0%nat. induction sel as [|c sel IH]; intros q; [reflexivity|]. cbn [length seq combine map snd]. f_equal. apply IH. }
      apply in_map_iff. exists (wl, similarity ei el). auto. }
    assert (Lk : length sel = Z.to_nat k).
    { apply Permutation_length in P. rewrite app_length in P. destruct rest; [destruct Hr|]. cbn [length] in P. lia. }
    split.
    - rewrite Eo, app_length, Search.ranked_length, repeat_length, Lk. lia.
    - intros m j v Hm Wj Rj. rewrite Eo in Hm. apply in_app_or in Hm. destruct Hm as [Hm|Hm]; [|rewrite Lk in Hm; replace (Z.to_nat k - Z.to_nat k - 1)%nat with 0%nat in Hm by lia; destruct Hm].
      destruct (SavedSearch.ranked_in _ _ Hm) as (c & Hc & Wc & Vc). pose proof (BR _ _ Hr Hc) as LE. cbn [snd] in LE.
      destruct (SavedSearch.tab_cand (distinct ws) embs T3 i w ei c Ei Hw) as (j' & ej & _ & Ej & Wc' & Wj' & Vc' & _); [apply (Permutation_in _ P), in_or_app; auto|].
      assert (j' = j). { rewrite Wc, Wc' in Wj. apply (proj1 (NoDup_nth_error (distinct ws)) T1); [apply nth_error_Some; congruence|congruence]. } subst j'.
      destruct (SavedSearch.tab_similarity pf (distinct ws) dim rows embs RD T3 T4 T5 HN HT i j ei ej Ei Ej) as (_ & u' & v' & Hu' & Hv' & Fs & Cs).
      rewrite Hu in Hu'. injection Hu' as <-. rewrite Rj in Hv'. injection Hv' as <-. rewrite Vc' in LE.
      apply fle_spec in LE. destruct LE as (_ & _ & LE). rewrite !fkey_fin in LE by auto. apply Rabs_le_inv in Cs. lra.
  Qed.
End Search.
Print Assumptions C96_rows.
Print Assumptions C96_order.
Print Assumptions C96_missing.

(** Three words with vectors (3, 4), (4, 3) and (-1, 1) meet the hypotheses; what is loaded can be
    searched, and the slack is below a hundred-thousandth. *)
Example C96_case : let ws := [bs "to"; bs "be"; bs "to"; bs "or"] in
  let rows := [[f_of_Z 3; f_of_Z 4]; [f_of_Z 4; f_of_Z 3]; [f_of_Z (-1); f_of_Z 1]] in
  saveable ws 2 rows /\
  (exists embs, loaded_from parse_float ws 2 rows embs /\ exists out, search_internal embs (bs "to") 2 = Ret out /\ map n_word out = [bs "be"; bs "or"]) /\
  (slack (nth 0 rows []) (nth 1 rows []) < / 10 ^ 5)%R.
Proof.
  intros ws rows.
  assert (V : forall z, Z.abs z <= 4 -> is_fin (f_of_Z z) = true /\ f2r (f_of_Z z) = IZR z) by (intros z Hz; apply and_comm, f_of_Z_exact; lia).
  assert (B : forall z, Z.abs z <= 4 -> is_fin (f_of_Z z) = true /\ (Rabs (f2r (f_of_Z z)) <= bpow radix2 399)%R).
  { intros z Hz. destruct (V z Hz) as (F & ->). split; [exact F|]. rewrite <- abs_IZR. apply Rle_trans with (bpow radix2 2); [apply IZR_le in Hz; exact Hz|apply bpow_le; lia]. }
  assert (LN : forall a b c, Z.abs a <= 4 -> Z.abs b <= 4 -> (0 <= c)%R -> (IZR a * IZR a + IZR b * IZR b = c * c)%R -> len_r [f_of_Z a; f_of_Z b] = c).
  { intros a b c Ha Hb Hc E. unfold len_r, dot_r. cbn [combine map fold_right fst snd]. destruct (V a Ha) as (_ & ->). destruct (V b Hb) as (_ & ->).
    rewrite Rplus_0_r, E. apply sqrt_square. exact Hc. }
  assert (S2 : (0 <= sqrt 2 < 2)%R). { split; [apply sqrt_pos|]. rewrite <- (sqrt_square 2) at 2 by lra. apply sqrt_lt_1; lra. }
  assert (I2 : INR 2 = 2%R) by (cbn; lra).
  assert (ST : forall a b c, Z.abs a <= 4 -> Z.abs b <= 4 -> (1 <= c)%R -> (IZR a * IZR a + IZR b * IZR b = c * c)%R -> storable [f_of_Z a; f_of_Z b]).
  { intros a b c Ha Hb Hc E. split; [constructor; [apply B; auto|constructor; [apply B; auto|constructor]]|]. rewrite (LN a b c) by (auto; lra). cbn [length]. rewrite I2, FmtFloat.pow10_6. lra. }
  split; [|split].
  - split; [lia|]. split; [lia|]. split.
    { assert (PL : forall b, In b (bs "tobeor") -> FmtFloat.plain b).
      { intros b Hb s Hs. unfold is_space, space_encodings in Hs. cbn in Hs, Hb. repeat (destruct Hs as [<-|Hs]; [cbn; intros Q; injection Q as <-; repeat (destruct Hb as [Hb|Hb]; [discriminate Hb|]); destruct Hb|]). destruct Hs. }
      repeat constructor; try discriminate; apply FmtFloat.plain_no_space; repeat constructor; apply PL; cbn; tauto. }
    split; [repeat constructor|]. split; [reflexivity|]. split; [|repeat constructor; vm_compute; discriminate].
    constructor; [apply (ST 3 4 5%R); try lia; try lra|]. constructor; [apply (ST 4 3 5%R); try lia; try lra|].
    constructor; [|constructor]. apply (ST (-1) 1 (sqrt 2)); try lia.
    + rewrite <- sqrt_1. apply sqrt_le_1; lra.
    + rewrite sqrt_sqrt by lra. lra.
  - assert (E : match load parse_float (file_of (fst (save good_writer (fun t => [t]) (dict_add dict_new ws) (of_rows 2 rows) false 0 []))) with
                | Ret embs => match search_internal embs (bs "to") 2 with Ret out => map n_word out = [bs "be"; bs "or"] | _ => False end
                | _ => False end) by (vm_compute; reflexivity).
    destruct (load parse_float _) as [embs|m|] eqn:EL; [|contradiction|contradiction]. exists embs. split.
    + exists (fun t => [t]), false, 0. split; [intros t; apply app_nil_r|]. split; [left; reflexivity|exact EL].
    + destruct (search_internal embs (bs "to") 2) as [out|m|]; [|contradiction|contradiction]. exists out. auto.
  - unfold slack, rows. cbn [nth]. rewrite (LN 3 4 5%R), (LN 4 3 5%R) by (try lia; lra). cbn [length]. rewrite I2, FmtFloat.pow10_6.
    change (bpow radix2 (-53)) with (/ 9007199254740992)%R. cbn [pow]. lra.
Qed.
