(** * Lines of a text, and what a line of a vector file says *)
From Verif.Lib Require Import Go F64.
From Verif.Spec Require Import Tokens.
From Verif.Model Require Import Reader Embedding.

(** The lines of a text: cut at every newline; an empty last piece is not a line. *)
Inductive lines : list byte -> list gostring -> Prop :=
| lines_end : lines [] []
| lines_last l : l <> [] -> ~ In x0a l -> lines l [l]
| lines_cons l r ls : ~ In x0a l -> lines r ls -> lines (l ++ [x0a] ++ r) (l :: ls).

(** The line gives the embedding: its words are the name and at least one number, all readable;
    Dim is the number of components and Norm the Euclidean norm as computed in float64. *)
Definition euclid (v : list f64) : f64 := fsqrt (fold_left (fun n x => fadd n (fmul x x)) v fzero).
Definition line_says (pf : gostring -> option f64) (l : gostring) (e : embedding) : Prop :=
  exists name nums, tokens l (name :: nums) /\ nums <> [] /\
    Forall2 (fun t x => pf t = Some x) nums (e_vec e) /\
    e_word e = name /\ e_dim e = Z.of_nat (length (e_vec e)) /\ e_norm e = euclid (e_vec e).

(** Lines that begin with a blank are skipped. *)
Definition kept (l : gostring) : bool :=
  match l with b :: _ => if byte_eq_dec b " "%byte then false else true | [] => true end.

(** A file with the given bytes, at its beginning. *)
Definition file_of (t : gostring) : reader := {| rd_data := t; rd_pos := 0; rd_err := false |}.
