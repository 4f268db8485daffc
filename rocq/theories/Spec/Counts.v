(** * Reading a co-occurrence matrix by words *)
From Coq Require Import Reals.
From Verif.Lib Require Import Go F64 F64Facts.
From Verif.Model Require Import Dictionary Encode Cooc Corpus.

(** The count stored for the words [a] and [b]: 0 when there is none. *)
Definition count_of (c : corpus) (a b : gostring) : R :=
  match c_cooc c with
  | None => 0%R
  | Some co =>
      match mget Z.eq_dec (encode_bigram (Z.of_nat (fst (dict_id (c_dic c) a))) (Z.of_nat (fst (dict_id (c_dic c) b)))) (co_ma co) with
      | Some v => f2r v
      | None => 0%R
      end
  end.

(** The sum of all stored counts, as real numbers. *)
Definition total (c : corpus) : R :=
  match c_cooc c with
  | None => 0%R
  | Some co => fold_right Rplus 0%R (map (fun kv => f2r (snd kv)) (co_ma co))
  end.

(** How often [a] occurs in the words [ws]. *)
Definition occurrences (a : gostring) (ws : list gostring) : nat := count_occ gostring_eq_dec ws a.
