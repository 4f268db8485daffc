(** * Arithmetic automation shared by the proof files. *)
From Coq Require Export ZArith Lia ZifyBool ZifyNat ZifyN.
Ltac Zify.zify_post_hook ::= Z.div_mod_to_equations.
