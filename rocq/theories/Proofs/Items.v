From Coq Require Import Sorting.Permutation.
From Verif.Lib Require Import Go F64 F64Facts ListFacts Tac.
From Verif.Model Require Import Dictionary Encode Cooc Reader Matrix Cells Glove Lexvec.
From Verif.Proofs Require Import Encode Cooc.
Local Open Scope Z_scope.

Definition ma_wf (m : list (Z * f64)) : Prop :=
  NoDup (map fst m) /\ forall k, In k (map fst m) -> exists a b, in32 a /\ in32 b /\ a <= b /\ k = encode_bigram a b.

Lemma ma_wf_mset m a b v : ma_wf m -> in32 a -> in32 b -> ma_wf (mset Z.eq_dec (encode_bigram a b) v m).
Proof.
  intros (N & K) Ha Hb. split; [apply mset_NoDup; auto|].
  intros k Hk. rewrite mset_keys in Hk.
  assert (Hk' : k = encode_bigram a b \/ In k (map fst m)).
  { destruct (in_dec _ _ _); [auto|]. apply in_app_or in Hk. destruct Hk as [|[|[]]]; auto. }
  destruct Hk' as [->|Hk']; [|auto].
  destruct (Z.le_ge_cases a b).
  - exists a, b. auto.
  - exists b, a. split; [auto|]. split; [auto|]. split; [auto|]. apply encode_bigram_sym.
Qed.

Lemma co_add_wf c a b : ma_wf (co_ma c) -> in32 a -> in32 b -> ma_wf (co_ma (fst (co_add c a b))).
Proof.
  intros H Ha Hb. unfold co_add. rewrite !wrap64_small by auto.
  destruct (String.eqb _ _); cbn [fst co_ma]; [apply ma_wf_mset; auto|].
  destruct (String.eqb _ _); [|exact H]. destruct (_ =? _); [exact H|]. cbn [fst co_ma]. apply ma_wf_mset; auto.
Qed.

Lemma for_each_wf : forall adds c, ma_wf (co_ma c) -> Forall (fun p => in32 (fst p) /\ in32 (snd p)) adds ->
  ma_wf (co_ma (fst (for_each (fun c p => co_add c (fst p) (snd p)) c adds))).
Proof.
  induction adds as [|[a b] adds IH]; intros c H HF; [exact H|]. inversion HF as [|? ? [Ha Hb] HF']; subst. cbn [fst snd] in Ha, Hb.
  cbn [for_each fst snd]. pose proof (co_add_wf c a b H Ha Hb) as H'. destruct (co_add c a b) as [c' [u| |]]; cbn [fst] in *; auto.
Qed.

Lemma adds_wf typ c0 adds : co_new typ = Ret c0 -> Forall (fun p => in32 (fst p) /\ in32 (snd p)) adds ->
  ma_wf (co_ma (fst (for_each (fun c p => co_add c (fst p) (snd p)) c0 adds))).
Proof.
  intros E HF. apply for_each_wf; auto. unfold co_new in E. destruct (_ && _); [discriminate|]. injection E as <-.
  split; [constructor|intros k []].
Qed.

Lemma ma_wf_perm m m' : Permutation m' m -> ma_wf m -> ma_wf m'.
Proof.
  intros P (N & K). assert (PM : Permutation (map fst m') (map fst m)) by (apply Permutation_map; auto).
  split; [eapply Permutation_NoDup; [symmetry; exact PM|auto]|]. intros k Hk. apply K. eapply Permutation_in; eauto.
Qed.

Lemma decode_wf m k : ma_wf m -> In k (map fst m) -> exists a b, in32 a /\ in32 b /\ a <= b /\ decode_bigram k = (a, b) /\
  wrap_int a = a /\ wrap_int b = b /\ k = encode_bigram a b.
Proof.
  intros (_ & K) Hk. destruct (K k Hk) as (a & b & Ha & Hb & Hab & ->). exists a, b.
  split; [auto|]. split; [auto|]. split; [auto|]. split.
  { rewrite decode_encode by auto. f_equal; lia. }
  split; [|split; [|reflexivity]]; apply wrap_int_small; unfold in32 in *; lia.
Qed.

(** ** GloVe *)
Section Glove.
Variables (flog : f64 -> f64) (fpow : f64 -> f64 -> f64) (xmax : Z) (alpha : f64).

Definition weight (f : f64) : f64 := if flt f (f_of_Z xmax) then fpow (fdiv f (f_of_Z xmax)) alpha else f_of_Z 1.

Lemma make_items_map verbose lb em : verbose = false \/ lb <> 0 -> make_items flog fpow xmax alpha verbose lb em = Ret (map (make_item flog fpow xmax alpha) em).
Proof.
  intros Hv. assert (E : verbose && (lb =? 0) = false).
  { destruct Hv as [->|Hv]; [reflexivity|]. destruct verbose; [|reflexivity]. apply Z.eqb_neq. auto. }
  induction em as [|kv em IH]; [reflexivity|]. cbn [make_items map]. rewrite E, IH. reflexivity.
Qed.

Lemma items_lemma typ c0 adds em verbose lb :
  co_new typ = Ret c0 -> Forall (fun p => in32 (fst p) /\ in32 (snd p)) adds -> verbose = false \/ lb <> 0 ->
  let c := fst (for_each (fun c p => co_add c (fst p) (snd p)) c0 adds) in
  Permutation em (co_ma c) ->
  exists items, make_items flog fpow xmax alpha verbose lb em = Ret items /\ length items = length (co_ma c) /\
    NoDup (map (fun it => (it_l1 it, it_l2 it)) items) /\
    forall l1 l2 x w, In (Item l1 l2 x w) items <->
      in32 l1 /\ in32 l2 /\ l1 <= l2 /\
      exists f, mget Z.eq_dec (encode_bigram l1 l2) (co_ma c) = Some f /\ x = flog f /\ w = weight f.
Proof.
  intros E0 HF Hv c P. pose proof (adds_wf typ c0 adds E0 HF) as W0. fold c in W0.
  pose proof (ma_wf_perm _ _ P W0) as W.
  exists (map (make_item flog fpow xmax alpha) em). split; [apply make_items_map; auto|].
  split; [rewrite map_length; apply Permutation_length; auto|].
  assert (MI : forall k f, In (k, f) em -> exists a b, in32 a /\ in32 b /\ a <= b /\ k = encode_bigram a b /\
     make_item flog fpow xmax alpha (k, f) = Item a b (flog f) (weight f)).
  { intros k f Hkf. destruct (decode_wf em k W (in_map fst _ _ Hkf)) as (a & b & Ha & Hb & Hab & D & W1 & W2 & Ek).
    exists a, b. unfold make_item. rewrite D, W1, W2. auto. }
  split.
  - rewrite map_map.
    assert (ND : NoDup (map fst em)) by apply W.
    clear P. induction em as [|[k f] em IH]; [constructor|].
    cbn [map] in *. inversion ND as [|? ? N1 N2]; subst. constructor.
    + intros Hin. apply in_map_iff in Hin. destruct Hin as ([k' f'] & Heq & Hin).
      destruct (MI k f (or_introl eq_refl)) as (a & b & Ha & Hb & Hab & -> & M1).
      destruct (MI k' f' (or_intror Hin)) as (a' & b' & Ha' & Hb' & Hab' & -> & M2).
      rewrite M1, M2 in Heq. cbn in Heq. injection Heq as -> ->. apply N1.
      change (encode_bigram a b) with (fst (encode_bigram a b, f')). apply in_map. exact Hin.
    + apply IH; [|intros k0 f0 H0; apply MI; right; exact H0|exact N2].
      split; [exact N2|]. intros k0 Hk0. apply W. right. exact Hk0.
  - intros l1 l2 x w. rewrite in_map_iff. split.
    + intros ([k f] & Heq & Hin). destruct (MI k f Hin) as (a & b & Ha & Hb & Hab & -> & M1). rewrite M1 in Heq.
      injection Heq as <- <- <- <-. split; [auto|]. split; [auto|]. split; [auto|]. exists f.
      split; [|auto]. apply In_mget; [apply W0|]. eapply Permutation_in; eauto.
    + intros (H1 & H2 & H12 & f & Hf & -> & ->). exists (encode_bigram l1 l2, f).
      assert (Hin : In (encode_bigram l1 l2, f) em).
      { eapply Permutation_in; [symmetry; exact P|]. apply mget_In in Hf. exact Hf. }
      split; [|exact Hin]. destruct (MI _ _ Hin) as (a & b & Ha & Hb & Hab & Ee & M1). rewrite M1.
      apply encode_bigram_inj in Ee; [|assumption..].
      destruct Ee as [(-> & ->)|(-> & ->)]; [reflexivity|]. assert (b = a) as -> by lia. reflexivity.
Qed.
End Glove.

(** ** LexVec *)
Section Lex.
Variables (flog : f64 -> f64) (fpow : f64 -> f64 -> f64) (d : dict) (typ : string) (smooth logTotal : f64).
Variables (verbose : bool) (lb : Z).
Hypothesis Hv : verbose = false \/ lb <> 0.

(** The relation value of a binding. *)
Definition rel (kv : Z * f64) : outcome f64 :=
  let (u1, u2) := decode_bigram (fst kv) in
  calculate_relation flog fpow d typ smooth (wrap_int u1) (wrap_int u2) (snd kv) logTotal.

Lemma loop_run : forall em res, Forall (fun kv => exists v, rel kv = Ret v) em -> NoDup (map fst em) ->
  exists res', make_items_loop flog fpow d typ smooth logTotal verbose lb em res = Ret res' /\
    forall k, match mget Z.eq_dec k em with
              | Some f => exists v, rel (k, f) = Ret v /\ mget Z.eq_dec k res' = Some v
              | None => mget Z.eq_dec k res' = mget Z.eq_dec k res
              end.
Proof.
  assert (E : verbose && (lb =? 0) = false).
  { destruct Hv as [->|Hv']; [reflexivity|]. destruct verbose; [|reflexivity]. apply Z.eqb_neq. auto. }
  induction em as [|[k0 f0] em IH]; intros res HF ND.
  - exists res. split; reflexivity.
  - inversion HF as [|? ? [v Hv0] HF']; subst. cbn [map fst] in ND. inversion ND as [|? ? N1 N2]; subst.
    cbn [make_items_loop]. unfold rel in Hv0. cbn [fst snd] in Hv0. destruct (decode_bigram k0) as [u1 u2] eqn:D.
    rewrite Hv0. cbn [obind]. cbv zeta. rewrite E.
    destruct (IH (mset Z.eq_dec k0 v res) HF' N2) as (res' & E' & K).
    exists res'. split; [exact E'|]. intros k. cbn [mget]. specialize (K k). destruct (Z.eq_dec k k0) as [->|Hne].
    + exists v. split; [unfold rel; cbn [fst snd]; rewrite D; exact Hv0|].
      assert (Enone : mget Z.eq_dec k0 em = None) by (apply mget_None_notin; auto).
      rewrite Enone in K. rewrite K, mget_mset_eq. reflexivity.
    + destruct (mget Z.eq_dec k em); [exact K|]. rewrite K, mget_mset_neq; auto.
Qed.

Lemma loop_err e kv em res : rel kv = Err e -> make_items_loop flog fpow d typ smooth logTotal verbose lb (kv :: em) res = Err e.
Proof. destruct kv as [k f]. unfold rel. cbn [fst snd make_items_loop]. destruct (decode_bigram k). intros ->. reflexivity. Qed.
End Lex.
