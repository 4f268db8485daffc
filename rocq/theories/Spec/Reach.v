(** * Optimizer states reachable from a fresh optimizer by optim calls *)
From Verif.Lib Require Import Go F64.
From Verif.Model Require Import Dictionary Matrix Huffman Word2vec.
From Verif.Spec Require Import Rows.

(** [or_ns]: any contents of a (vocabulary x dim) context matrix; [or_hs]: the Huffman tree as
    built; [or_step]: after any optim call on vectors of the right length and a valid id. *)
Inductive opt_reach (sig : f64 -> outcome f64) (d : dict) (dim : nat) : optimizer -> Prop :=
| or_ns rows k : all_len dim rows -> length rows = dict_len d -> opt_reach sig d dim (NS (of_rows dim rows) k)
| or_hs h set depth : huffman_tree d (Z.of_nat dim) = Ret (h, set) -> (0 <= depth)%Z ->
    opt_reach sig d dim (HS h set depth)
| or_step opt lr ctx id next tmp next' opt' tmp' :
    opt_reach sig d dim opt -> length ctx = dim -> length tmp = dim -> id < dict_len d ->
    optim sig opt lr ctx (Z.of_nat id) next tmp = Ret (next', opt', tmp') ->
    opt_reach sig d dim opt'.
