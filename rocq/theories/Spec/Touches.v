(** * How often GloVe training updates a row *)
From Verif.Lib Require Import Go F64.
From Verif.Model Require Import Glove.

(** The rows updated by one item: its two words' rows and their context rows (offset [V]). *)
Definition item_rows (V : nat) (it : item) : list nat :=
  let a := Z.to_nat (it_l1 it) in let b := Z.to_nat (it_l2 it) in [a; b + V; a + V; b].

(** How many updates of row [r] the items make. *)
Definition touches (V : nat) (items : list item) (r : nat) : nat :=
  list_sum (map (fun it => count_occ Nat.eq_dec (item_rows V it) r) items).
