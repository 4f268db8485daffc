(** * Co-occurrence counting *)
From Coq Require Import Reals Lra.
From Flocq Require Import Core BinarySingleNaN.
From Verif.Lib Require Import Go ListFacts F64 F64Facts Tac.
From Verif.Spec Require Import Pairs.
From Verif.Model Require Import Encode Cooc Reader.
From Verif.Proofs Require Import Encode Reader.
Local Open Scope Z_scope.

Definition add_pair : callback cooc (Z * Z) := fun c p => co_add c (fst p) (snd p).

Definition in32 (z : Z) : Prop := 0 <= z < 2 ^ 32.

Lemma same_pair_true (p q : Z * Z) : same_pair Z.eq_dec p q = true <->
  (fst p = fst q /\ snd p = snd q) \/ (fst p = snd q /\ snd p = fst q).
Proof.
  destruct p as [a b], q as [c d]. simpl.
  destruct (Z.eq_dec a c), (Z.eq_dec b d), (Z.eq_dec a d), (Z.eq_dec b c); simpl; split; intros H;
    try discriminate; auto; destruct H as [[? ?]|[? ?]]; congruence.
Qed.

Lemma same_pair_key a b c d : in32 a -> in32 b -> in32 c -> in32 d ->
  (encode_bigram a b = encode_bigram c d <-> same_pair Z.eq_dec (a, b) (c, d) = true).
Proof.
  intros. rewrite encode_bigram_inj by assumption. rewrite same_pair_true. simpl. tauto.
Qed.

Lemma wrap64_small a : in32 a -> wrap64 a = a.
Proof. intros H. apply Z.mod_small. unfold in32, two64 in *. lia. Qed.

(** Counting by repeated [+ 1.0] is exact up to 2^53, where it stays. *)
Definition cap (n : nat) : Z := Z.min (Z.of_nat n) (2 ^ 53).

Lemma f1_val : f2r (f_of_Z 1) = 1%R /\ is_fin (f_of_Z 1) = true.
Proof. apply f_of_Z_exact. lia. Qed.

Lemma rnd_2_53_plus_1 : rnd (IZR (2 ^ 53) + 1) = IZR (2 ^ 53).
Proof.
  destruct (f_of_Z_exact (2 ^ 53) ltac:(lia)) as [V F].
  destruct f1_val as [V1 F1].
  assert (E : fadd (f_of_Z (2 ^ 53)) (f_of_Z 1) = f_of_Z (2 ^ 53)).
  { assert (feq : forall x y : f64, B2SF x = B2SF y -> x = y) by (intros; now apply B2SF_inj).
    apply feq. vm_compute. reflexivity. }
  pose proof (Bplus_correct 53 1024 _ _ mode_NE (f_of_Z (2 ^ 53)) (f_of_Z 1) F F1) as H.
  rewrite round_mode_NE, V, V1 in H. fold (rnd (IZR (2 ^ 53) + 1)) in H.
  fold (fadd (f_of_Z (2 ^ 53)) (f_of_Z 1)) in H. rewrite E in H.
  destruct (Rlt_bool _ _).
  - destruct H as [H _]. now rewrite <- H.
  - destruct H as [H _]. apply (f_equal (fun x => match x with SpecFloat.S754_infinity _ => true | _ => false end)) in H.
    vm_compute in H. discriminate.
Qed.

Lemma count_step n v : is_fin v = true -> f2r v = IZR (cap n) ->
  is_fin (fadd v (f_of_Z 1)) = true /\ f2r (fadd v (f_of_Z 1)) = IZR (cap (S n)).
Proof.
  intros F V. destruct f1_val as [V1 F1].
  assert (R : rnd (f2r v + f2r (f_of_Z 1)) = IZR (cap (S n))).
  { rewrite V, V1. unfold cap. destruct (Z.lt_ge_cases (Z.of_nat n) (2 ^ 53)).
    - rewrite Z.min_l by lia. rewrite <- plus_IZR, rnd_IZR by lia. f_equal. lia.
    - rewrite Z.min_r by lia. rewrite rnd_2_53_plus_1. f_equal. lia. }
  destruct (fadd_fin v (f_of_Z 1) F F1) as [H1 H2].
  - rewrite R. apply IZR_lt_MAX. unfold cap.
    assert (2 ^ 53 <= 2 ^ 1000) by (apply Z.pow_le_mono_r; lia). lia.
  - split; auto. congruence.
Qed.

Definition cell_ok (n : nat) (o : option f64) : Prop :=
  match n with
  | O => o = None
  | _ => exists v, o = Some v /\ is_fin v = true /\ f2r v = IZR (cap n)
  end.

Definition key_count (k : Z) (l : list (Z * Z)) : nat :=
  length (filter (fun p => Z.eqb (encode_bigram (fst p) (snd p)) k) l).

Lemma inc_run adds : Forall (fun p => in32 (fst p) /\ in32 (snd p)) adds ->
  forall c hist, co_typ c = increment -> (forall k, cell_ok (key_count k hist) (mget Z.eq_dec k (co_ma c))) ->
  NoDup (map fst (co_ma c)) ->
  exists c', for_each add_pair c adds = (c', Ret tt) /\ co_typ c' = increment /\
    (forall k, cell_ok (key_count k (hist ++ adds)) (mget Z.eq_dec k (co_ma c'))) /\
    NoDup (map fst (co_ma c')).
Proof.
  induction 1 as [|[a b] adds [Ha Hb] Hf IH]; intros c hist Hty Hc Hnd.
  - exists c. rewrite app_nil_r. simpl. auto.
  - cbn [for_each]. unfold add_pair at 1. cbn [fst snd] in *. unfold co_add.
    rewrite Hty. cbn [increment String.eqb Ascii.eqb Bool.eqb].
    rewrite !wrap64_small by assumption.
    change (String.eqb increment increment) with true. cbn iota beta zeta.
    set (k0 := encode_bigram a b).
    match goal with |- context [for_each add_pair ?c' adds] => set (c1 := c') end.
    destruct (IH c1 (hist ++ [(a, b)])) as (c' & R1 & R2 & R3 & R4).
    + reflexivity.
    + intros k. unfold c1. cbn [co_ma]. rewrite mget_mset.
      unfold key_count. rewrite filter_app, app_length. cbn [filter fst snd]. fold k0.
      fold (key_count k hist). specialize (Hc k).
      destruct (Z.eq_dec k0 k) as [<-|Hne].
      * rewrite Z.eqb_refl. cbn [length]. replace (key_count k0 hist + 1)%nat with (S (key_count k0 hist)) by lia.
        destruct (key_count k0 hist) as [|n] eqn:E.
        -- simpl in Hc. rewrite Hc. cbn [cell_ok].
           eexists; split; [reflexivity|]. apply (count_step 0 fzero); reflexivity.
        -- destruct Hc as (v & -> & Fv & Vv). cbn [cell_ok].
           eexists; split; [reflexivity|]. now apply (count_step (S n) v).
      * destruct (Z.eqb_spec k0 k); [congruence|]. cbn [length]. rewrite Nat.add_0_r. exact Hc.
    + unfold c1. cbn [co_ma]. now apply mset_NoDup.
    + exists c'. split; [exact R1|]. split; auto. rewrite <- app_assoc in R3. auto.
Qed.

Lemma key_pair_count a b adds : in32 a -> in32 b ->
  Forall (fun p => in32 (fst p) /\ in32 (snd p)) adds ->
  key_count (encode_bigram a b) adds = pair_count Z.eq_dec a b adds.
Proof.
  intros Ha Hb. unfold key_count, pair_count.
  induction 1 as [|[c d] adds [Hc Hd] Hf IH]; simpl; auto.
  cbn [fst snd] in *.
  pose proof (same_pair_key a b c d Ha Hb Hc Hd) as K. unfold same_pair in K.
  destruct (Z.eqb_spec (encode_bigram c d) (encode_bigram a b)) as [E|E];
    destruct ((if Z.eq_dec a c then _ else _) || _)%bool eqn:S.
  - simpl. now rewrite IH.
  - symmetry in E. apply K in E. congruence.
  - exfalso. apply E. symmetry. now apply K.
  - exact IH.
Qed.

Lemma key_count_pos k adds : (0 < key_count k adds)%nat ->
  exists p, In p adds /\ encode_bigram (fst p) (snd p) = k.
Proof.
  unfold key_count. intros H.
  destruct (filter _ adds) as [|p l] eqn:E; [simpl in H; lia|].
  assert (Hin : In p (filter (fun p => Z.eqb (encode_bigram (fst p) (snd p)) k) adds)) by (rewrite E; left; auto).
  apply filter_In in Hin as [Hin Hk]. exists p. split; auto. now apply Z.eqb_eq.
Qed.

Lemma inc_counts_lemma adds : Forall (fun p => in32 (fst p) /\ in32 (snd p)) adds ->
  exists c0 c, co_new "inc" = Ret c0 /\
    for_each (fun c p => co_add c (fst p) (snd p)) c0 adds = (c, Ret tt) /\
    (forall a b, in32 a -> in32 b ->
       match pair_count Z.eq_dec a b adds with
       | O => mget Z.eq_dec (encode_bigram a b) (co_ma c) = None
       | n => exists v, mget Z.eq_dec (encode_bigram a b) (co_ma c) = Some v /\
                        is_fin v = true /\ f2r v = IZR (Z.min (Z.of_nat n) (2 ^ 53))
       end) /\
    (forall k v, In (k, v) (co_ma c) -> exists p, In p adds /\ k = encode_bigram (fst p) (snd p)) /\
    NoDup (map fst (co_ma c)).
Proof.
  intros Hf. exists {| co_typ := increment; co_ma := [] |}.
  destruct (inc_run adds Hf {| co_typ := increment; co_ma := [] |} []) as (c & R1 & R2 & R3 & R4);
    [reflexivity|intros k; reflexivity|constructor|].
  exists c. split; [reflexivity|]. split; [exact R1|]. simpl in R3. split; [|split; [|exact R4]].
  - intros a b Ha Hb. rewrite <- (key_pair_count a b adds Ha Hb Hf).
    specialize (R3 (encode_bigram a b)). unfold cell_ok in R3.
    destruct (key_count (encode_bigram a b) adds); auto.
  - intros k v Hin. specialize (R3 k).
    destruct (key_count k adds) eqn:E.
    + simpl in R3. apply mget_None_notin in R3. exfalso. apply R3. change k with (fst (k, v)). now apply in_map.
    + destruct (key_count_pos k adds) as (p & Hp & Hk); [lia|]. exists p. auto.
Qed.

(** ** Proximity *)

Lemma prox_weight d : 0 < Z.abs d < 2 ^ 53 ->
  let w := fdiv (f_of_Z 1) (fabs (f_of_Z d)) in
  is_fin w = true /\ f2r w = rnd (1 / IZR (Z.abs d)) /\ (0 < f2r w <= 1)%R.
Proof.
  intros Hd. cbv zeta.
  destruct f1_val as [V1 F1].
  destruct (f_of_Z_exact d ltac:(lia)) as [Vd Fd].
  assert (Va : f2r (fabs (f_of_Z d)) = IZR (Z.abs d)).
  { unfold fabs. rewrite B2R_Babs, Vd. now rewrite abs_IZR. }
  assert (Hpos : (1 <= IZR (Z.abs d))%R) by (apply IZR_le; lia).
  assert (Hle : (0 <= 1 / IZR (Z.abs d) <= 1)%R).
  { split.
    - apply Rmult_le_pos; [lra|]. left. apply Rinv_0_lt_compat. lra.
    - apply Rmult_le_reg_r with (IZR (Z.abs d)); [lra|]. field_simplify; lra. }
  assert (Hr : (0 <= rnd (1 / IZR (Z.abs d)) <= 1)%R).
  { split; [rewrite <- rnd_0; now apply rnd_le|].
    rewrite <- V1. apply rnd_le_f. rewrite V1. lra. }
  destruct (fdiv_fin (f_of_Z 1) (fabs (f_of_Z d)) F1) as [Vw Fw].
  - rewrite Va. lra.
  - rewrite V1, Va. rewrite Rabs_pos_eq by lra.
    apply Rle_lt_trans with 1%R; [lra|]. rewrite <- (Rabs_pos_eq 1) by lra.
    apply (IZR_lt_MAX 1). simpl. lia.
  - rewrite V1, Va in Vw. split; [exact Fw|]. split; [exact Vw|]. rewrite Vw. split; [|lra].
    (* 1/|d| >= 2^-53, which is representable *)
    assert (Hb : (bpow radix2 (-53) <= rnd (1 / IZR (Z.abs d)))%R).
    { assert (Hg : generic_format radix2 (SpecFloat.fexp 53 1024) (bpow radix2 (-53))).
      { apply generic_format_bpow. unfold SpecFloat.fexp, SpecFloat.emin. lia. }
      rewrite <- (round_generic radix2 (SpecFloat.fexp 53 1024) ZnearestE _ Hg) at 1.
      apply rnd_le. apply Rmult_le_reg_r with (IZR (Z.abs d)); [lra|].
      replace (1 / IZR (Z.abs d) * IZR (Z.abs d))%R with 1%R by (field; lra).
      apply Rle_trans with (bpow radix2 (-53) * bpow radix2 53)%R.
      - apply Rmult_le_compat_l; [apply bpow_ge_0|].
        rewrite <- (IZR_Zpower radix2 53) by lia. apply IZR_le. simpl. lia.
      - rewrite <- bpow_plus. simpl. lra. }
    apply Rlt_le_trans with (2 := Hb). apply bpow_gt_0.
Qed.

Lemma wrap_int_small z : - 2 ^ 63 <= z < 2 ^ 63 -> wrap_int z = z.
Proof. intros H. unfold wrap_int. rewrite Z.mod_small; lia. Qed.

Lemma proximity_lemma c a b : co_typ c = "prox"%string -> in32 a -> in32 b ->
  (a = b -> exists e, co_add c a b = (c, Err e)) /\
  (a <> b -> exists c' w, co_add c a b = (c', Ret tt) /\ co_typ c' = "prox"%string /\
     is_fin w = true /\ f2r w = rnd (1 / IZR (Z.abs (a - b))) /\ (0 < f2r w <= 1)%R /\
     (forall k, mget Z.eq_dec k (co_ma c') =
        if Z.eq_dec (encode_bigram a b) k
        then Some (fadd (match mget Z.eq_dec k (co_ma c) with Some v => v | None => fzero end) w)
        else mget Z.eq_dec k (co_ma c))).
Proof.
  intros Hty Ha Hb. unfold in32 in *. unfold co_add. rewrite Hty.
  change (String.eqb "prox" increment) with false. change (String.eqb "prox" proximity) with true.
  cbn iota. rewrite wrap_int_small by lia. rewrite !wrap64_small by assumption.
  destruct (Z.eqb_spec (a - b) 0) as [E|E]; split; intros H; try lia.
  - eexists. reflexivity.
  - destruct (prox_weight (a - b)) as (W1 & W2 & W3); [lia|].
    eexists; eexists; split; [reflexivity|]. split; [reflexivity|].
    split; [exact W1|]. split; [exact W2|]. split; [exact W3|].
    intros k. cbn [co_ma]. rewrite mget_mset. destruct (Z.eq_dec (encode_bigram a b) k) as [<-|]; auto.
Qed.

Lemma co_new_lemma t :
  (t = "inc"%string \/ t = "prox"%string -> co_new t = Ret {| co_typ := t; co_ma := [] |}) /\
  (t <> "inc"%string -> t <> "prox"%string -> exists e, co_new t = Err e).
Proof.
  unfold co_new, increment, proximity. destruct (String.eqb_spec t "inc"), (String.eqb_spec t "prox"); simpl.
  all: split; intros; auto; try congruence.
  - destruct H; congruence.
  - now exists err_count_type.
Qed.
