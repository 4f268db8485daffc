(** * What the console should do *)
From Verif.Lib Require Import Go F64.
From Verif.Model Require Import Embedding Search Console.

(** The first item named [w]. *)
Definition known (items : list embedding) (w : gostring) (it : embedding) : Prop :=
  exists pre post, items = pre ++ it :: post /\ e_word it = w /\ ~ In w (map e_word pre).
Definition unknown (items : list embedding) (w : gostring) : Prop := ~ In w (map e_word items).

(** Items as Load and New leave them: each valid, all of one dimension. *)
Definition proper (items : list embedding) : Prop :=
  Forall (fun e => e_word e <> [] /\ e_dim e = Z.of_nat (length (e_vec e)) /\ (1 <= e_dim e)%Z) items /\
  forall a b, In a items -> In b items -> e_dim a = e_dim b.

(** Component-wise operation on two vectors. *)
Definition pointwise (f : f64 -> f64 -> f64) (u v : list f64) : list f64 := map (fun p => f (fst p) (snd p)) (combine u v).

(** The search for a vector, ignoring two words. *)
Definition find_near (items : list embedding) (k : Z) (v : list f64) (w1 w2 : gostring) : outcome (list event) :=
  obind (search items (Emb [] 0 v (norm v)) k [w1; w2]) (fun rows => Ret [Table rows]).

(** A table of [n] blank rows. *)
Definition blanks (n : nat) : list event := [Table (repeat nb_zero n)].
