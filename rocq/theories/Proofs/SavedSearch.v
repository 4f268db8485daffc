(** * Searching a saved and loaded table *)
From Coq Require Import Reals Lra Lia List ZArith Sorting.Permutation Sorting.Sorted.
From Flocq Require Import Core BinarySingleNaN.
From Verif.Lib Require Import Go F64 F64Facts.
From Verif.Spec Require Import Cosine Decimal Search SavedSearch Lines.
From Verif.Model Require Import FmtFloat Embedding Search.
From Verif.Proofs Require Import Cosine FmtFloat SavedCosine.
From Verif.Proofs Require Search.
Import ListNotations.
Local Open Scope R_scope.

Lemma f2_nth {A B} (P : A -> B -> Prop) l l' : Forall2 P l l' -> forall i y, nth_error l' i = Some y -> exists x, nth_error l i = Some x /\ P x y.
Proof. induction 1 as [|a b l l' H F IH]; intros [|i] y Hy; try discriminate Hy; [injection Hy as <-; exists a; auto|]. exact (IH i y Hy). Qed.

Section Table.
  Variables (pf : gostring -> option f64) (words : list gostring) (n : nat) (rows : list (list f64)) (embs : list embedding).
  Hypothesis RD : reads_decimals pf.
  Hypothesis ND : NoDup words.
  Hypothesis NE : Forall (fun w => w <> []) words.
  Hypothesis HW : map e_word embs = words.
  Hypothesis HF : Forall2 (fun v e => e_dim e = Z.of_nat n /\ Forall2 (fun x y => pf (fmt_f x) = Some y) v (e_vec e) /\ e_norm e = euclid (e_vec e)) rows embs.
  Hypothesis HL : Forall (fun v => length v = n) rows.
  Hypothesis HN : (Z.of_nat n <= 2 ^ 20)%Z.
  Hypothesis HS : Forall storable rows.

  Lemma tab_item j e : nth_error embs j = Some e -> exists v, nth_error rows j = Some v /\ length v = n /\ length (e_vec e) = n /\ storable v /\
    Forall2 (reread pf) v (e_vec e) /\ e_norm e = norm (e_vec e) /\ nth_error words j = Some (e_word e).
  Proof.
    intros He. destruct (f2_nth _ _ _ HF j e He) as (v & Hv & _ & F & E). exists v. split; [exact Hv|].
    rewrite Forall_forall in HL, HS. pose proof (HL v (nth_error_In _ _ Hv)) as Lv. split; [exact Lv|]. split; [rewrite <- Lv; symmetry; exact (f2_length F)|].
    split; [exact (HS v (nth_error_In _ _ Hv))|]. split; [exact F|]. split; [exact E|]. rewrite <- HW. apply map_nth_error. exact He.
  Qed.

  Lemma tab_similarity i j ei ej : nth_error embs i = Some ei -> nth_error embs j = Some ej ->
    comparable ei ej /\ exists u v, nth_error rows i = Some u /\ nth_error rows j = Some v /\
    is_fin (similarity ei ej) = true /\ Rabs (f2r (similarity ei ej) - cos_r u v) <= slack u v.
  Proof.
    intros Hi Hj. destruct (tab_item i ei Hi) as (u & Hu & Lu & Leu & (Su & Tu) & Fu & Eu & _).
    destruct (tab_item j ej Hj) as (v & Hv & Lv & Lev & (Sv & Tv) & Fv & Ev & _).
    assert (C : comparable ei ej) by (right; right; lia). split; [exact C|]. exists u, v. split; [exact Hu|]. split; [exact Hv|].
    pose proof (Search.cosine_similarity ei ej C) as E. rewrite Eu, Ev in E.
    rewrite pow10_6 in Tu, Tv. rewrite Lv, <- Lu in Tv.
    destruct (saved_cosine pf u v _ _ RD ltac:(congruence) ltac:(rewrite Lu; exact HN) Fu Fv Su Sv Tu Tv) as (r & Er & Fr & Cr).
    rewrite E in Er. injection Er as ->. split; [exact Fr|]. unfold slack. rewrite pow10_6. exact Cr.
  Qed.

  Lemma tab_search i w k out : nth_error words i = Some w -> (1 <= k)%Z -> search_internal embs w k = Ret out ->
    exists ei, nth_error embs i = Some ei /\ exists sel, best (Z.to_nat k) (candidates embs ei [w]) sel /\
      out = ranked sel ++ repeat nb_zero (Z.to_nat k - length sel - 1).
  Proof.
    intros Hw Hk E. rewrite <- HW in Hw. assert (Hw' := Hw).
    rewrite nth_error_map in Hw. destruct (nth_error embs i) as [ei|] eqn:Ei; [|discriminate Hw]. cbn [option_map] in Hw. injection Hw as Hw. exists ei. split; [reflexivity|].
    destruct (nth_error_split _ _ Ei) as (pre & post & Es & Lp).
    assert (Wn : w <> []). { rewrite Forall_forall in NE. apply NE. rewrite <- HW. exact (nth_error_In _ _ Hw'). }
    assert (Np : ~ In w (map e_word pre)).
    { pose proof ND as N. rewrite <- HW, Es, map_app in N. cbn [map] in N. rewrite Hw in N. intros Hin. apply NoDup_remove_2 in N. apply N, in_or_app. left. exact Hin. }
    rewrite Es in E. rewrite (Search.search_internal_ok pre ei post w k Wn Hw Np) in E. rewrite <- Es in E.
    destruct (Search.search_ok embs ei k [w] Hk) as (sel & HB & HE).
    - apply Forall_forall. intros it Hit. right. apply In_nth_error in Hit. destruct Hit as (j & Hj). apply (tab_similarity i j ei it Ei Hj).
    - apply Forall_forall. intros c Hc. unfold candidates in Hc.
      apply in_map_iff in Hc. destruct Hc as (it & <- & Hi). apply filter_In in Hi. rewrite Forall_forall in NE. cbn [fst]. apply NE. rewrite <- HW. apply (in_map e_word). tauto.
    - exists sel. split; [exact HB|]. rewrite E in HE. injection HE as ->. reflexivity.
  Qed.

  (** A candidate is an item other than the query. *)
  Lemma tab_cand i w ei c : nth_error embs i = Some ei -> nth_error words i = Some w -> In c (candidates embs ei [w]) ->
    exists j ej, j <> i /\ nth_error embs j = Some ej /\ fst c = e_word ej /\ nth_error words j = Some (e_word ej) /\ snd c = similarity ei ej /\ fgt (snd c) fzero = true.
  Proof.
    intros Ei Hw Hc. unfold candidates in Hc. apply in_map_iff in Hc. destruct Hc as (it & <- & Hi). apply filter_In in Hi. destruct Hi as (Hi & Hf).
    apply andb_prop in Hf. destruct Hf as (Hf & Hg). apply In_nth_error in Hi. destruct Hi as (j & Hj). exists j, it.
    assert (Wj : nth_error words j = Some (e_word it)) by (rewrite <- HW; apply map_nth_error; exact Hj).
    split; [|auto 6]. intros ->. rewrite Wj in Hw. injection Hw as Hw. rewrite Hw in Hf. destruct (in_dec gostring_eq_dec w [w]) as [|Nn]; [discriminate Hf|apply Nn; left; reflexivity].
  Qed.
End Table.

Lemma ranked_in sel m : In m (ranked sel) -> exists c, In c sel /\ n_word m = fst c /\ n_sim m = snd c.
Proof.
  unfold ranked. intros H. apply in_map_iff in H. destruct H as ((i & c) & <- & Hi). exists c. cbn [n_word n_sim fst snd]. split; [|auto]. exact (in_combine_r _ _ _ _ Hi).
Qed.
