(** * Model of pkg/corpus/dictionary/dictionary.go *)
From Verif.Lib Require Import Go.

(** dictionary.go:21-28, [type Dictionary struct].
    Ids, counts and [maxid] only ever grow from 0, so they are [nat]. *)
Record dict := MkDict {
  word2id : list (gostring * nat);
  id2word : list gostring;
  cfs : list nat;
  maxid : nat
}.

(** dictionary.go:30-37, [New]. *)
Definition dict_new : dict := MkDict [] [] [] 0.

(** dictionary.go:39-41, [Len]. *)
Definition dict_len (d : dict) : nat := maxid d.

(** dictionary.go:43-46, [ID]: Go's map read yields the zero value 0 with [ok = false]. *)
Definition dict_id (d : dict) (w : gostring) : nat * bool :=
  match mget gostring_eq_dec w (word2id d) with
  | Some id => (id, true)
  | None => (0, false)
  end.

(** dictionary.go:48-54, [WordFreq]. *)
Definition dict_word_freq (d : dict) (w : gostring) : outcome nat :=
  match mget gostring_eq_dec w (word2id d) with
  | None => Ret 0
  | Some id => match nth_error (cfs d) id with
               | Some c => Ret c
               | None => Panic
               end
  end.

(** dictionary.go:56-61, [Word]. Any Go [int] may be passed. *)
Definition dict_word (d : dict) (id : Z) : outcome (gostring * bool) :=
  if (id >=? Z.of_nat (maxid d))%Z then Ret ([], false)
  else match zindex (id2word d) id with
       | Some w => Ret (w, true)
       | None => Panic
       end.

(** dictionary.go:63-68, [IDFreq]. *)
Definition dict_id_freq (d : dict) (id : Z) : outcome nat :=
  if (id >=? Z.of_nat (maxid d))%Z then Ret 0
  else match zindex (cfs d) id with
       | Some c => Ret c
       | None => Panic
       end.

(** dictionary.go:71-79, one iteration of the loop of [Add].
    [d.cfs[id]++] on a stored id; the index is in range in every reachable state
    (proved in Proofs/Dictionary.v), [upd]/[nth] never use their default there. *)
Definition dict_add1 (d : dict) (word : gostring) : dict :=
  match mget gostring_eq_dec word (word2id d) with
  | Some id =>
      MkDict (word2id d) (id2word d) (upd (cfs d) id (S (nth id (cfs d) 0))) (maxid d)
  | None =>
      MkDict (mset gostring_eq_dec word (maxid d) (word2id d))
             (id2word d ++ [word]) (cfs d ++ [1]) (S (maxid d))
  end.

(** dictionary.go:70-81, [Add] (variadic). *)
Definition dict_add (d : dict) (words : list gostring) : dict :=
  fold_left dict_add1 words d.
