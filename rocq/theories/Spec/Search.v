(** * What a search should return *)
From Coq Require Import Sorting.Permutation Sorting.Sorted.
From Verif.Lib Require Import Go F64.
From Verif.Spec Require Import Training.
From Verif.Model Require Import Embedding Search.

(** Cosine similarity of an item with the query, as computed in float64. *)
Definition similarity (q it : embedding) : f64 :=
  if feq (e_norm q) fzero || feq (e_norm it) fzero then fzero
  else fdiv (fdiv (fold_left (fun d p => fadd d (fmul (fst p) (snd p))) (combine (e_vec q) (e_vec it)) fzero) (e_norm q)) (e_norm it).

(** The items that may be returned: not ignored and with positive similarity. *)
Definition candidates (items : list embedding) (q : embedding) (ign : list gostring) : list (gostring * f64) :=
  map (fun it => (e_word it, similarity q it))
      (filter (fun it => (if in_dec gostring_eq_dec (e_word it) ign then false else true) && fgt (similarity q it) fzero) items).

(** Rows with ranks 1, 2, ... *)
Definition ranked (sel : list (gostring * f64)) : list neighbor :=
  map (fun p => Nb (fst (snd p)) (Z.of_nat (fst p) + 1) (snd (snd p))) (combine (seq 0 (length sel)) sel).

(** [sel] is a choice of the at most [k] best of [cs], best first: what is left over is not better
    than anything chosen, and is empty unless [k] were chosen. *)
Definition best (k : nat) (cs sel : list (gostring * f64)) : Prop :=
  exists rest, Permutation (sel ++ rest) cs /\
    StronglySorted (fun a b => fle (snd b) (snd a) = true) sel /\
    (forall a b, In a rest -> In b sel -> fle (snd a) (snd b) = true) /\
    length sel = Nat.min k (length cs).

(** The query can be compared with the item without running past its end. *)
Definition comparable (q it : embedding) : Prop :=
  feq (e_norm q) fzero = true \/ feq (e_norm it) fzero = true \/ length (e_vec q) <= length (e_vec it).
