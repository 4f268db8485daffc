(** * The text of a saved model *)
From Verif.Lib Require Import Go F64.
From Verif.Model Require Import FmtFloat.

(** A line: the word, a blank, each component with six digits and a blank, a newline. *)
Definition saved_line (w : gostring) (v : list f64) : gostring :=
  w ++ bs " " ++ concat (map (fun x => fmt_f x ++ bs " ") v) ++ [x0a].

Definition saved_text (words : list gostring) (vs : list (list f64)) : gostring :=
  concat (map (fun p => saved_line (fst p) (snd p)) (combine words vs)).

(** Destinations: one that stores everything, and a disk with room for [n] bytes. *)
Definition good_writer (st p : list byte) : list byte * (Z * bool) := (st ++ p, (Z.of_nat (length p), false)).
Definition full_writer (n : nat) (st p : list byte) : list byte * (Z * bool) :=
  let q := firstn (n - length st) p in (st ++ q, (Z.of_nat (length q), length q <? length p)).
(** Any destination, together with the bytes it was given. *)
Definition logged {W} (wr : W -> list byte -> W * (Z * bool)) (st : W * list byte) (p : list byte) : (W * list byte) * (Z * bool) :=
  let '(s, r) := wr (fst st) p in ((s, snd st ++ p), r).
(** It fails on a call. *)
Definition failing {W} (wr : W -> list byte -> W * (Z * bool)) : Prop :=
  exists s p, let '(_, (n, e)) := wr s p in e = true \/ (n < Z.of_nat (length p))%Z.
