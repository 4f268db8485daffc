(** * C06-C07: co-occurrence counting *)
From Coq Require Import Reals.
From Verif.Lib Require Import Go F64 F64Facts.
From Verif.Spec Require Import Pairs.
From Verif.Model Require Import Encode Cooc Reader.
From Verif.Proofs Require Cooc.
Local Open Scope Z_scope.

(** C06. [adds] is any sequence of Add calls with ids below 2^32. All succeed; the cell of every
    pair of ids is absent when the unordered pair was never added and otherwise holds, as an exact
    float64, the number of times it was added (2^53 when it was added more often than that); no
    other cells exist. *)
Theorem C06_increment_counts : forall adds : list (Z * Z),
  Forall (fun p => 0 <= fst p < 2 ^ 32 /\ 0 <= snd p < 2 ^ 32) adds ->
  exists c0 c, co_new "inc" = Ret c0 /\
    for_each (fun c p => co_add c (fst p) (snd p)) c0 adds = (c, Ret tt) /\
    (forall a b, 0 <= a < 2 ^ 32 -> 0 <= b < 2 ^ 32 ->
       match pair_count Z.eq_dec a b adds with
       | O => mget Z.eq_dec (encode_bigram a b) (co_ma c) = None
       | n => exists v, mget Z.eq_dec (encode_bigram a b) (co_ma c) = Some v /\
                        is_fin v = true /\ f2r v = IZR (Z.min (Z.of_nat n) (2 ^ 53))
       end) /\
    (forall k v, In (k, v) (co_ma c) -> exists p, In p adds /\ k = encode_bigram (fst p) (snd p)) /\
    NoDup (map fst (co_ma c)).
Proof. exact Cooc.inc_counts_lemma. Qed.
Print Assumptions C06_increment_counts.

Example C06_case :
  let c := fst (for_each (fun c p => co_add c (fst p) (snd p)) {| co_typ := "inc"; co_ma := [] |}
                  [(1, 2); (2, 1); (3, 3); (1, 2)]) in
  map (fun kv => (decode_bigram (fst kv), fshow (snd kv))) (co_ma c) =
  [((1, 2), Some (3 * 2 ^ 51, -51)); ((3, 3), Some (2 ^ 52, -52))].
Proof. vm_compute. reflexivity. Qed.

(** C07. Proximity: an error exactly for equal ids, leaving the matrix as it was; otherwise the
    float64 nearest to 1/|a-b| is added to the cell of {a, b} and nothing else changes. *)
Theorem C07_proximity_add : forall (c : cooc) (a b : Z),
  co_typ c = "prox"%string -> 0 <= a < 2 ^ 32 -> 0 <= b < 2 ^ 32 ->
  (a = b -> exists e, co_add c a b = (c, Err e)) /\
  (a <> b -> exists c' w, co_add c a b = (c', Ret tt) /\ co_typ c' = "prox"%string /\
     is_fin w = true /\ f2r w = rnd (1 / IZR (Z.abs (a - b))) /\ (0 < f2r w <= 1)%R /\
     (forall k, mget Z.eq_dec k (co_ma c') =
        if Z.eq_dec (encode_bigram a b) k
        then Some (fadd (match mget Z.eq_dec k (co_ma c) with Some v => v | None => fzero end) w)
        else mget Z.eq_dec k (co_ma c))).
Proof. exact Cooc.proximity_lemma. Qed.
Print Assumptions C07_proximity_add.

(** C07. The accepted count types. *)
Theorem C07_count_types : forall t : string,
  (t = "inc"%string \/ t = "prox"%string -> co_new t = Ret {| co_typ := t; co_ma := [] |}) /\
  (t <> "inc"%string -> t <> "prox"%string -> exists e, co_new t = Err e).
Proof. exact Cooc.co_new_lemma. Qed.
Print Assumptions C07_count_types.

Example C07_case :
  let c := fst (for_each (fun c p => co_add c (fst p) (snd p)) {| co_typ := "prox"; co_ma := [] |}
                  [(1, 5); (5, 1); (2, 2)]) in
  map (fun kv => (decode_bigram (fst kv), fshow (snd kv))) (co_ma c) = [((1, 5), Some (2 ^ 52, -53))].
Proof. vm_compute. reflexivity. Qed.
