(** * Replacing the words of a text by other words *)
From Verif.Lib Require Import Go F64.
From Verif.Spec Require Import Readable.
From Verif.Model Require Import Dictionary Reader Corpus Train.

(** [f] gives every word of the text [all] a new spelling: different words stay different, and
    lower-casing a new spelling is the new spelling of the lower-cased word (when ToLower is on).
    The empty string is no word; it stays itself. *)
Record respells (lower : gostring -> gostring) (to_lower : bool) (f : gostring -> gostring) (all : list gostring) : Prop := {
  rs_empty : f [] = [];
  rs_different : forall v w, In v ([] :: all ++ used_words lower to_lower all) -> In w ([] :: all ++ used_words lower to_lower all) ->
    f v = f w -> v = w;
  rs_lower : to_lower = true -> forall w, In w all -> lower (f w) = f (lower w) }.

(** The dictionary with every word replaced: same ids, same frequencies. *)
Definition respelled_dict (f : gostring -> gostring) (d : dict) : dict :=
  MkDict (map (fun p => (f (fst p), snd p)) (word2id d)) (map f (id2word d)) (cfs d) (maxid d).

(** The corpus of the new text [doc]: nothing but the dictionary's words (and the text) differs. *)
Definition respelled (f : gostring -> gostring) (doc : reader) (to_lower : bool) (c : corpus) : corpus :=
  {| c_doc := doc; c_dic := respelled_dict f (c_dic c); c_cooc := c_cooc c; c_len := c_len c; c_idoc := c_idoc c;
     c_lower := to_lower; c_max := c_max c; c_min := c_min c |}.

(** Two outcomes of Save that differ in the words only: both fail alike and write nothing, or both
    succeed and the files are the same lines, beginning with [words] and with their new spellings. *)
Definition file_with (words tails : list gostring) : gostring :=
  concat (map (fun p => fst p ++ snd p) (combine words tails)).
Definition same_file (f : gostring -> gostring) (words : list gostring) (r r' : list byte * outcome unit) : Prop :=
  snd r = snd r' /\
  match snd r with
  | Ret _ => exists tails, length tails = length words /\ Forall (fun t => exists t', t = bs " " ++ t') tails /\
      fst r = file_with words tails /\ fst r' = file_with (map f words) tails
  | _ => fst r = [] /\ fst r' = []
  end.
