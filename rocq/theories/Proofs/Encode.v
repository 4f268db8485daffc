(** * Bigram encoding *)
From Verif.Lib Require Import Go Tac.
From Verif.Model Require Import Encode.
Local Open Scope Z_scope.

Definition two32 : Z := 2 ^ 32.

Lemma shiftl32 x : Z.shiftl x 32 = x * two32.
Proof. rewrite Z.shiftl_mul_pow2 by lia. reflexivity. Qed.

Lemma shiftr32 x : Z.shiftr x 32 = x / two32.
Proof. rewrite Z.shiftr_div_pow2 by lia. reflexivity. Qed.

(** [or] of a 32-bit low part and a shifted high part is a sum. *)
Lemma lor_disjoint a b : 0 <= a < two32 -> Z.lor a (b * two32) = a + b * two32.
Proof.
  intros Ha. symmetry.
  rewrite <- shiftl32.
  rewrite Z.add_nocarry_lxor, Z.lxor_lor; auto.
  all: apply Z.bits_inj'; intros n Hn; rewrite Z.land_spec, Z.bits_0;
    rewrite Z.shiftl_spec by lia;
    destruct (Z.lt_ge_cases n 32) as [H|H];
    [ rewrite (Z.testbit_neg_r b (n - 32)) by lia; apply andb_false_r
    | destruct (Z.eq_dec a 0) as [->|Ha0]; [rewrite Z.bits_0; reflexivity|];
      rewrite (Z.bits_above_log2 a n); [reflexivity|lia|];
      apply Z.lt_le_trans with 32; [|lia];
      apply Z.log2_lt_pow2; [lia|unfold two32 in Ha; lia] ].
Qed.

Lemma encode_small a b : 0 <= a < two32 -> 0 <= b < two32 -> encode a b = a + b * two32.
Proof.
  intros Ha Hb. unfold encode, wrap64. rewrite shiftl32.
  rewrite Z.mod_small.
  - now apply lor_disjoint.
  - unfold two64, two32 in *. lia.
Qed.

Lemma encode_bigram_small a b : 0 <= a < two32 -> 0 <= b < two32 ->
  encode_bigram a b = Z.min a b + Z.max a b * two32.
Proof.
  intros Ha Hb. unfold encode_bigram. destruct (Z.ltb_spec a b).
  - rewrite encode_small by auto. rewrite Z.min_l, Z.max_r by lia. reflexivity.
  - rewrite encode_small by auto. rewrite Z.min_r, Z.max_l by lia. reflexivity.
Qed.

Lemma decode_sum a b : 0 <= a < two32 -> 0 <= b < two32 -> decode_bigram (a + b * two32) = (a, b).
Proof.
  intros Ha Hb. unfold decode_bigram. rewrite shiftr32.
  assert (E : (a + b * two32) / two32 = b).
  { rewrite Z.div_add by (unfold two32; lia). rewrite Z.div_small by auto. reflexivity. }
  rewrite E, shiftl32. unfold wrap64.
  rewrite (Z.mod_small (b * two32)) by (unfold two64, two32 in *; lia).
  replace (a + b * two32 - b * two32) with a by lia.
  rewrite Z.mod_small by (unfold two64, two32 in *; lia). reflexivity.
Qed.

Lemma decode_encode a b : 0 <= a < two32 -> 0 <= b < two32 ->
  decode_bigram (encode_bigram a b) = (Z.min a b, Z.max a b).
Proof.
  intros Ha Hb. rewrite encode_bigram_small by auto. apply decode_sum; lia.
Qed.

Lemma encode_bigram_sym a b : encode_bigram a b = encode_bigram b a.
Proof.
  unfold encode_bigram. destruct (Z.ltb_spec a b), (Z.ltb_spec b a); try lia; auto.
  assert (a = b) by lia; subst; reflexivity.
Qed.

Lemma encode_range a b : 0 <= a < two64 -> 0 <= b < two64 -> 0 <= encode a b < two64.
Proof.
  intros Ha Hb. unfold encode.
  assert (Hw : 0 <= wrap64 (Z.shiftl b 32) < two64)
    by (unfold wrap64; apply Z.mod_pos_bound; reflexivity).
  set (c := wrap64 (Z.shiftl b 32)) in *. clearbody c.
  split; [apply Z.lor_nonneg; lia|].
  destruct (Z.eq_dec (Z.lor a c) 0) as [->|Hne]; [reflexivity|].
  assert (0 <= Z.lor a c) by (apply Z.lor_nonneg; lia).
  unfold two64. apply Z.log2_lt_pow2; [lia|].
  rewrite Z.log2_lor by lia.
  apply Z.max_lub_lt.
  - destruct (Z.eq_dec a 0) as [->|]; [reflexivity|]. apply Z.log2_lt_pow2; unfold two64 in *; lia.
  - destruct (Z.eq_dec c 0) as [->|]; [reflexivity|]. apply Z.log2_lt_pow2; unfold two64 in *; lia.
Qed.

Lemma decode_range p : 0 <= p < two64 ->
  0 <= fst (decode_bigram p) < two32 /\ 0 <= snd (decode_bigram p) < two32.
Proof.
  intros Hp. unfold decode_bigram. rewrite shiftr32, shiftl32. cbn [fst snd].
  unfold wrap64.
  assert (0 <= p / two32 < two32).
  { split; [apply Z.div_pos; unfold two32; lia|].
    apply Z.div_lt_upper_bound; unfold two32, two64 in *; lia. }
  assert (E : p - p / two32 * two32 = p mod two32).
  { pose proof (Z.div_mod p two32 ltac:(unfold two32; lia)). lia. }
  rewrite (Z.mod_small (p / two32 * two32)) by (unfold two32, two64 in *; lia).
  rewrite E. pose proof (Z.mod_pos_bound p two32 ltac:(unfold two32; lia)).
  rewrite Z.mod_small by (unfold two32, two64 in *; lia). auto.
Qed.

Lemma encode_bigram_inj a b c d :
  0 <= a < two32 -> 0 <= b < two32 -> 0 <= c < two32 -> 0 <= d < two32 ->
  (encode_bigram a b = encode_bigram c d <-> (a = c /\ b = d) \/ (a = d /\ b = c)).
Proof.
  intros Ha Hb Hc Hd. split.
  - intros E. apply (f_equal decode_bigram) in E.
    rewrite !decode_encode in E by auto. inversion E. lia.
  - intros [[-> ->]|[-> ->]]; auto. apply encode_bigram_sym.
Qed.

Lemma decode_encode_iff a b : 0 <= a < two64 -> 0 <= b < two64 ->
  (decode_bigram (encode_bigram a b) = (Z.min a b, Z.max a b) <-> a < two32 /\ b < two32).
Proof.
  intros Ha Hb. split.
  - intros E.
    assert (Hr : 0 <= encode_bigram a b < two64).
    { unfold encode_bigram. destruct (a <? b); apply encode_range; auto. }
    pose proof (decode_range _ Hr) as [H1 H2]. rewrite E in *. cbn [fst snd] in *. lia.
  - intros [H1 H2]. apply decode_encode; lia.
Qed.

Lemma encode_bigram_range a b : 0 <= a < two64 -> 0 <= b < two64 -> 0 <= encode_bigram a b < two64.
Proof. intros. unfold encode_bigram. destruct (a <? b); apply encode_range; auto. Qed.

Lemma bigram_roundtrip_lemma a b : 0 <= a < 2 ^ 32 -> 0 <= b < 2 ^ 32 ->
  decode_bigram (encode_bigram a b) = (Z.min a b, Z.max a b) /\
  encode_bigram a b = encode_bigram b a /\
  0 <= encode_bigram a b < 2 ^ 64 /\
  (forall c d, 0 <= c < 2 ^ 32 -> 0 <= d < 2 ^ 32 ->
     (encode_bigram a b = encode_bigram c d <-> (a = c /\ b = d) \/ (a = d /\ b = c))).
Proof.
  intros Ha Hb. split; [now apply decode_encode|]. split; [apply encode_bigram_sym|].
  split; [apply encode_bigram_range; unfold two64; lia|].
  intros; now apply encode_bigram_inj.
Qed.

Lemma bigram_sharp_lemma :
  (forall a b : Z, 0 <= a < 2 ^ 64 -> 0 <= b < 2 ^ 64 ->
     (decode_bigram (encode_bigram a b) = (Z.min a b, Z.max a b) <-> a < 2 ^ 32 /\ b < 2 ^ 32)) /\
  (forall a b : Z, 0 <= a <= b -> b < 2 ^ 32 ->
     encode_bigram a (b + 2 ^ 32) = encode_bigram a b).
Proof.
  split; [exact decode_encode_iff|].
  intros a b Ha Hb.
  rewrite (encode_bigram_small a b) by (unfold two32; lia).
  rewrite Z.min_l, Z.max_r by lia.
  unfold encode_bigram. destruct (Z.ltb_spec a (b + 2 ^ 32)); [|lia].
  unfold encode. rewrite shiftl32. unfold wrap64.
  replace ((b + 2 ^ 32) * two32) with (b * two32 + 1 * two64) by (unfold two32, two64; lia).
  rewrite Z.mod_add by (unfold two64; lia).
  rewrite Z.mod_small by (unfold two32, two64; lia).
  apply lor_disjoint. unfold two32; lia.
Qed.
