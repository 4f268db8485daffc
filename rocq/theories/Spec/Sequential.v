(** * Training by one goroutine, read sequentially *)
From Verif.Lib Require Import Go.

Section Seq.
Context {A X : Type}.
(** The subsampling decision for a word, and training at a position of a document. *)
Variables (trial : A -> X -> outcome (X * bool)) (work : list A -> nat -> X -> outcome X).

(** One pass over the rest [todo] of the document [doc], which begins at position [pos]. *)
Fixpoint one_pass (doc : list A) (pos : nat) (todo : list A) (v : X) : outcome X :=
  match todo with
  | [] => Ret v
  | x :: todo' =>
      obind (trial x v) (fun '(v1, train) =>
      obind (if train then work doc pos v1 else Ret v1) (one_pass doc (S pos) todo'))
  end.

(** [k] passes over the whole document. *)
Fixpoint passes (k : nat) (doc : list A) (v : X) : outcome X :=
  match k with
  | O => Ret v
  | S k' => obind (one_pass doc 0 doc v) (passes k' doc)
  end.
End Seq.
