(** * C04-C05: the bigram key *)
From Verif.Lib Require Import Go.
From Verif.Model Require Import Encode.
From Verif.Proofs Require Encode.
Local Open Scope Z_scope.

(** C04. Ids below 2^32 round-trip, in either order, and the key identifies the unordered pair. *)
Theorem C04_bigram_roundtrip : forall a b : Z,
  0 <= a < 2 ^ 32 -> 0 <= b < 2 ^ 32 ->
  decode_bigram (encode_bigram a b) = (Z.min a b, Z.max a b) /\
  encode_bigram a b = encode_bigram b a /\
  0 <= encode_bigram a b < 2 ^ 64 /\
  (forall c d, 0 <= c < 2 ^ 32 -> 0 <= d < 2 ^ 32 ->
     (encode_bigram a b = encode_bigram c d <-> (a = c /\ b = d) \/ (a = d /\ b = c))).
Proof. exact Encode.bigram_roundtrip_lemma. Qed.
Print Assumptions C04_bigram_roundtrip.

Example C04_case :
  encode_bigram 7 3 = 7 * 2 ^ 32 + 3 /\ decode_bigram (encode_bigram 7 3) = (3, 7) /\
  decode_bigram (encode_bigram (2^32 - 1) (2^32 - 2)) = (2^32 - 2, 2^32 - 1).
Proof. vm_compute. auto. Qed.

(** C05. The bound is sharp for uint64 arguments, and there are collisions just above it. *)
Theorem C05_bigram_bound_sharp :
  (forall a b : Z, 0 <= a < 2 ^ 64 -> 0 <= b < 2 ^ 64 ->
     (decode_bigram (encode_bigram a b) = (Z.min a b, Z.max a b) <-> a < 2 ^ 32 /\ b < 2 ^ 32)) /\
  (forall a b : Z, 0 <= a <= b -> b < 2 ^ 32 ->
     encode_bigram a (b + 2 ^ 32) = encode_bigram a b).
Proof. exact Encode.bigram_sharp_lemma. Qed.
Print Assumptions C05_bigram_bound_sharp.

(** The different unordered pairs {3, 7} and {3, 2^32 + 7} share one key. *)
Example C05_case :
  encode_bigram 3 (7 + 2 ^ 32) = encode_bigram 3 7 /\ decode_bigram (encode_bigram 3 (7 + 2 ^ 32)) = (3, 7).
Proof. vm_compute. auto. Qed.
