From Coq Require Import Reals Lra Lia.
From Flocq Require Import Core BinarySingleNaN.
From Verif.Lib Require Import Go F64 F64Facts.
From Verif.Model Require Import FmtFloat ParseFloat.
From Verif.Spec Require Import Tokens Decimal.
From Verif.Proofs Require Import FmtFloat.
Local Open Scope Z_scope.

Lemma f_of_ratio_spec neg p q : let r := rnd (IZR (Zpos p) / IZR (Zpos q)) in
  (Rabs r < F64MAX)%R -> let y := f_of_ratio neg p q in
  is_fin y = true /\ Bsign y = neg /\ f2r y = (if neg then - r else r)%R.
Proof.
  intros r Hr. cbv zeta. unfold f_of_ratio.
  pose proof (proj2 (Bdiv_correct_aux 53 1024 _ _ mode_NE neg p 0 false q 0)) as C.
  generalize (proj1 (Bdiv_correct_aux 53 1024 _ _ mode_NE neg p 0 false q 0)). intros V.
  cbv zeta in C. revert V C. set (z := let '(mz, ez, lz) := _ in _). clearbody z. intros V C.
  assert (E : round radix2 (SpecFloat.fexp 53 1024) (round_mode mode_NE)
     (F2R (Float radix2 (SpecFloat.cond_Zopp neg (Zpos p)) 0) / F2R (Float radix2 (SpecFloat.cond_Zopp false (Zpos q)) 0))
     = (if neg then - r else r)%R).
  { rewrite round_mode_NE. fold (rnd (F2R (Float radix2 (SpecFloat.cond_Zopp neg (Zpos p)) 0) / F2R (Float radix2 (SpecFloat.cond_Zopp false (Zpos q)) 0))).
    rewrite !IZR_F2R. destruct neg; cbn [SpecFloat.cond_Zopp]; [|reflexivity].
    rewrite opp_IZR. unfold Rdiv. rewrite Ropp_mult_distr_l_reverse, rnd_opp. reflexivity. }
  rewrite E in C. rewrite Rlt_bool_MAX_true in C.
  - destruct C as (C1 & C2 & C3). rewrite is_finite_SF2B, Bsign_SF2B, B2R_SF2B. rewrite xorb_false_r in C3. auto.
  - destruct neg; [rewrite Rabs_Ropp|]; auto.
Qed.

Lemma digit_of_val b : digit_of b = digit_val b. Proof. reflexivity. Qed.

Lemma read_digits_app ds : Forall is_digit ds -> forall rest acc cnt,
  (rest = [] \/ exists b r, rest = b :: r /\ digit_val b = None) ->
  read_digits (ds ++ rest) acc cnt = (acc * 10 ^ Z.of_nat (length ds) + value ds, (cnt + length ds)%nat, rest).
Proof.
  induction ds as [|b ds IH]; intros F rest acc cnt HR; cbn [app length].
  - assert (read_digits rest acc cnt = (acc, cnt, rest)) as ->.
    { destruct HR as [->|(b & r & -> & E)]; [reflexivity|]. cbn [read_digits]. rewrite digit_of_val, E. reflexivity. }
    cbn. rewrite Z.mul_1_r, Z.add_0_r, Nat.add_0_r. reflexivity.
  - inversion F as [|? ? Fb Fl]; subst. cbn [read_digits]. rewrite digit_of_val. unfold is_digit in Fb.
    destruct (digit_val b) as [d|] eqn:E; [|tauto]. rewrite IH by auto.
    replace (S cnt + length ds)%nat with (cnt + S (length ds))%nat by lia.
    change (value (b :: ds)) with (value ([b] ++ ds)). rewrite value_app. unfold value at 2. cbn [fold_left]. rewrite E.
    rewrite Nat2Z.inj_succ, Z.pow_succ_r by lia. f_equal. f_equal. ring.
Qed.

Lemma value_nonneg ds : 0 <= value ds.
Proof.
  induction ds as [|b ds IH] using rev_ind; [cbn; lia|]. rewrite value_app. unfold value at 2. cbn [fold_left length].
  change (10 ^ Z.of_nat 1) with 10. unfold digit_val. cbv zeta.
  destruct ((48 <=? Z.of_N (to_N b)) && (Z.of_N (to_N b) <=? 57)) eqn:E; [|lia].
  apply andb_prop in E. destruct E as [E _]. apply Z.leb_le in E. lia.
Qed.

Lemma pow10_IZR k : (10 ^ k = IZR (10 ^ Z.of_nat k))%R.
Proof. rewrite <- pow_IZR. reflexivity. Qed.

Lemma decimal_to_float_spec neg n k : 0 <= n -> (rnd (IZR n / 10 ^ k) < F64MAX)%R ->
  exists y, decimal_to_float neg n k = Some y /\ is_fin y = true /\ Bsign y = neg /\
            f2r y = (if neg then - rnd (IZR n / 10 ^ k) else rnd (IZR n / 10 ^ k))%R.
Proof.
  intros Hn Hr. destruct n as [|p|p]; [| |lia]; cbn [decimal_to_float].
  - exists (B754_zero neg). repeat split. change (f2r (B754_zero neg)) with 0%R.
    unfold Rdiv. rewrite Rmult_0_l, rnd_0. destruct neg; lra.
  - rewrite pow10_IZR in *. assert (0 < 10 ^ Z.of_nat k) by (apply Z.pow_pos_nonneg; lia).
    destruct (10 ^ Z.of_nat k) as [|q|q]; [lia| |lia]. cbn [Z.to_pos].
    assert (0 <= rnd (IZR (Z.pos p) / IZR (Z.pos q)))%R.
    { rewrite <- rnd_0. apply rnd_le. apply Rmult_le_pos; [apply IZR_le; lia|]. left. apply Rinv_0_lt_compat. apply IZR_lt. lia. }
    pose proof (f_of_ratio_spec neg p q) as K. cbv zeta in K. destruct K as (F & S & E); [rewrite Rabs_pos_eq; auto|].
    exists (f_of_ratio neg p q). cbv zeta. rewrite F. auto.
Qed.

Lemma parse_float_reads : reads_decimals parse_float.
Proof.
  split; [|repeat split].
  intros t neg n k (ip & fp & -> & Fi & Ff & Ni & _ & Lk & En) Hr.
  assert (Hn : 0 <= n) by (subst n; apply value_nonneg).
  destruct ip as [|b ip]; [tauto|]. assert (Fb : is_digit b) by (inversion Fi; auto).
  assert (Hs : forall s : gostring, In s [bs "+Inf"; bs "-Inf"; bs "NaN"] -> gseqb ((if neg then bs "-" else []) ++ (b :: ip) ++ bs "." ++ fp) s = false).
  { intros s Hs. unfold gseqb. destruct (gostring_eq_dec _ _) as [E|]; [|reflexivity]. exfalso.
    assert (forall c, is_digit c -> c <> "+"%byte /\ c <> "I"%byte /\ c <> "N"%byte /\ c <> "-"%byte) as D.
    { intros c Hc. repeat split; intros ->; apply Hc; reflexivity. }
    destruct (D _ Fb) as (D1 & D2 & D3 & D4).
    cbn in Hs. destruct Hs as [<-|[<-|[<-|[]]]]; destruct neg; cbn in E; injection E; intros; congruence. }
  unfold parse_float. rewrite !Hs by (cbn; auto).
  assert (Hsplit : (match (if neg then bs "-" else []) ++ (b :: ip) ++ bs "." ++ fp with
                     | c :: t' => if byte_eq_dec c "-"%byte then (true, t')
                                  else if byte_eq_dec c "+"%byte then (false, t') else (false, (if neg then bs "-" else []) ++ (b :: ip) ++ bs "." ++ fp)
                     | [] => (false, (if neg then bs "-" else []) ++ (b :: ip) ++ bs "." ++ fp) end) = (neg, (b :: ip) ++ bs "." ++ fp)).
  { destruct neg; [reflexivity|]. cbn [app]. destruct (byte_eq_dec b "-"%byte) as [->|]; [exfalso; apply Fb; reflexivity|].
    destruct (byte_eq_dec b "+"%byte) as [->|]; [exfalso; apply Fb; reflexivity|]. reflexivity. }
  rewrite Hsplit. clear Hsplit Hs.
  rewrite (read_digits_app (b :: ip) Fi (bs "." ++ fp)) by (right; exists "."%byte, fp; split; reflexivity).
  change (bs "." ++ fp) with ("."%byte :: fp). cbn iota. destruct (byte_eq_dec "." ".") as [_|]; [|congruence].
  replace (read_digits fp (0 * 10 ^ Z.of_nat (length (b :: ip)) + value (b :: ip)) 0) with (n, k, @nil byte).
  2: { rewrite <- (app_nil_r fp) at 1. rewrite read_digits_app by auto. rewrite En, Lk, value_app, Lk. do 2 f_equal; auto. }
  cbn iota. destruct (Nat.eqb_spec (0 + length (b :: ip) + k) 0) as [E|_]; [cbn [length] in E; lia|].
  apply decimal_to_float_spec; auto.
Qed.
