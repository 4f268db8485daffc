(** * Model of pkg/corpus/cpsutil (filters), pkg/corpus/memory and pkg/corpus/fs

    [strings.ToLower] is the argument [lower]; [lc] is the toLower option. *)
From Verif.Lib Require Import Go F64.
From Verif.Model Require Import Dictionary Encode Cooc Reader.

(** cpsutil.go:108-112, [MaxCount]: drop the id when [0 < v && v < IDFreq(id)]. *)
Definition max_count (v : Z) (id : nat) (d : dict) : outcome bool :=
  if (0 <? v)%Z
  then obind (dict_id_freq d (Z.of_nat id)) (fun f => Ret (v <? Z.of_nat f)%Z)
  else Ret false.

(** cpsutil.go:114-118, [MinCount]: drop the id when [0 <= v && IDFreq(id) < v]. *)
Definition min_count (v : Z) (id : nat) (d : dict) : outcome bool :=
  if (0 <=? v)%Z
  then obind (dict_id_freq d (Z.of_nat id)) (fun f => Ret (Z.of_nat f <? v)%Z)
  else Ret false.

(** cpsutil.go:98-104, [Filters.Any]; [b || fn(...)] does not call [fn] once [b] holds. *)
Fixpoint filters_any (fs : list (nat -> dict -> outcome bool)) (b : bool) (id : nat) (d : dict)
  : outcome bool :=
  match fs with
  | [] => Ret b
  | f :: fs' => if b then filters_any fs' true id d
                else obind (f id d) (fun b' => filters_any fs' b' id d)
  end.

(** memory.go:49-52 and fs.go:47-50: the filters of a corpus. *)
Definition corpus_filters (maxc minc : Z) : list (nat -> dict -> outcome bool) :=
  [max_count maxc; min_count minc].

(** memory.go:30-40 and fs.go:30-39. [co_idoc] is unused by the file-backed corpus. *)
Record corpus := {
  c_doc : reader;
  c_dic : dict;
  c_cooc : option cooc;
  c_len : nat;
  c_idoc : list nat;
  c_lower : bool;
  c_max : Z;
  c_min : Z
}.

(** memory.go:42-54 / fs.go:41-52, [New]. *)
Definition corpus_new (doc : reader) (lc : bool) (maxc minc : Z) : corpus :=
  {| c_doc := doc; c_dic := dict_new; c_cooc := None; c_len := 0; c_idoc := [];
     c_lower := lc; c_max := maxc; c_min := minc |}.

(** memory.go:114 / fs.go:128, the assignment of [c.cooc]. *)
Definition set_cooc (c : corpus) (o : option cooc) : corpus :=
  {| c_doc := c_doc c; c_dic := c_dic c; c_cooc := o; c_len := c_len c; c_idoc := c_idoc c;
     c_lower := c_lower c; c_max := c_max c; c_min := c_min c |}.

(** corpus.go:32-35, [WithCooccurrence]. *)
Record with_cooc := { w_type : string; w_window : Z }.

(** memory.go:56-65, [IndexedDoc] of the in-memory corpus. *)
Fixpoint indexed_doc_loop (fs : list (nat -> dict -> outcome bool)) (d : dict) (idoc res : list nat)
  : outcome (list nat) :=
  match idoc with
  | [] => Ret res
  | id :: idoc' => obind (filters_any fs false id d) (fun drop =>
                   indexed_doc_loop fs d idoc' (if drop then res else res ++ [id]))
  end.
(** memory.go:56-65, [IndexedDoc]. *)
Definition mem_indexed_doc (c : corpus) : outcome (list nat) :=
  indexed_doc_loop (corpus_filters (c_max c) (c_min c)) (c_dic c) (c_idoc c) [].

(** fs.go:54-56, [IndexedDoc] of the file-backed corpus. *)
Definition fs_indexed_doc (c : corpus) : outcome (list nat) := Ret [].

Section Load.
  Variable lower : gostring -> gostring.
  (** verbose.go: [Do] runs its argument only when the flag is set; the argument computes
      [count % logBatch], which panics when logBatch is 0. The printing is not modelled. *)
  Variables (verbose : bool) (log_batch : Z).
  (** memory.go:94-98, 125-129 / fs.go:108-112, 140-144, verbose.go:27-31. *)
  Definition report : outcome unit :=
    if verbose then if (log_batch =? 0)%Z then Panic else Ret tt else Ret tt.

  (** memory.go:86-88 / fs.go:61-63, 102-104. *)
  Definition low (c : corpus) (w : gostring) : gostring := if c_lower c then lower w else w.

  (** memory.go:85-101, the callback of the first pass of [Load] (in-memory). *)
  Definition mem_load_word : callback corpus gostring := fun c word =>
    let word := low c word in
    let d := dict_add (c_dic c) [word] in
    let (id, _) := dict_id d word in
    ({| c_doc := c_doc c; c_dic := d; c_cooc := c_cooc c; c_len := S (c_len c);
        c_idoc := c_idoc c ++ [id]; c_lower := c_lower c; c_max := c_max c; c_min := c_min c |},
     report).

  (** fs.go:101-115, the same for the file-backed corpus (no [idoc]). *)
  Definition fs_load_word : callback corpus gostring := fun c word =>
    let word := low c word in
    ({| c_doc := c_doc c; c_dic := dict_add (c_dic c) [word]; c_cooc := c_cooc c; c_len := S (c_len c);
        c_idoc := c_idoc c; c_lower := c_lower c; c_max := c_max c; c_min := c_min c |},
     report).

  (** Add a pair of ids to the matrix, then report progress. memory.go:121-129 / fs.go:136-144. *)
  Definition add_ids : callback cooc (nat * nat) := fun co p =>
    match co_add co (Z.of_nat (fst p)) (Z.of_nat (snd p)) with
    | (co', Ret _) => (co', report)
    | res => res
    end.

  (** memory.go:120-130: the inner loop
      [for j := i + 1; j < len(c.idoc) && j <= i+with.Window; j++]. *)
  Fixpoint mem_inner (fuel : nat) (window : Z) (idoc : list nat) (i j : nat) (co : cooc)
    : cooc * outcome unit :=
    match fuel with
    | O => (co, Ret tt)
    | S fuel =>
      if (Nat.ltb j (length idoc) && (Z.of_nat j <=? Z.of_nat i + window)%Z)%bool
      then match add_ids co (nth i idoc 0, nth j idoc 0) with
           | (co', Ret _) => mem_inner fuel window idoc i (S j) co'
           | res => res
           end
      else (co, Ret tt)
    end.

  (** memory.go:119, the outer loop [for i := 0; i < len(c.idoc); i++]. *)
  Definition mem_outer (window : Z) (idoc : list nat) (co : cooc) : cooc * outcome unit :=
    for_each (fun co i => mem_inner (length idoc) window idoc i (S i) co) co (seq 0 (length idoc)).

  (** memory.go:83-138, [Load] of the in-memory corpus. *)
  Definition mem_load (c : corpus) (w : option with_cooc) : corpus * outcome unit :=
    match read_word (c_doc c) mem_load_word c with
    | (c, Ret _) =>
      match w with
      | None => (c, Ret tt)
      | Some w =>
        match co_new (w_type w) with
        | Ret co => let (co', o) := mem_outer (w_window w) (c_idoc c) co in (set_cooc c (Some co'), o)
        | Err e => (set_cooc c None, Err e)
        | Panic => (c, Panic)
        end
      end
    | res => res
    end.

  (** fs.go:133-146, the callback of the co-occurrence pass: note that the words are looked
      up as read (not lower-cased), and an unknown word has id 0. *)
  Definition fs_pair (d : dict) : callback cooc (gostring * gostring) := fun co p =>
    let (id1, _) := dict_id d (fst p) in
    let (id2, _) := dict_id d (snd p) in
    add_ids co (id1, id2).

  (** fs.go:99-155, [Load] of the file-backed corpus. *)
  Definition fs_load (c : corpus) (w : option with_cooc) : corpus * outcome unit :=
    match read_word (c_doc c) fs_load_word c with
    | (c, Ret _) =>
      match w with
      | None => (c, Ret tt)
      | Some w =>
        match co_new (w_type w) with
        | Ret co =>
          let (co', o) := read_word_with_forward_context (c_doc c) (w_window w) (fs_pair (c_dic c)) co in
          (set_cooc c (Some co'), o)
        | Err e => (set_cooc c None, Err e)
        | Panic => (c, Panic)
        end
      end
    | res => res
    end.

  (** State of fs.go:58-85, [BatchWords]: cursor, buffer, and what was sent on the channel. *)
  Record batch_st := { b_cursor : nat; b_ids : list nat; b_sent : list (list nat) }.

  (** fs.go:60-77, the callback. [doc] is the second pass' reader (the same file). *)
  Definition batch_word (c : corpus) (size : nat) : callback batch_st gostring := fun b word =>
    let word := low c word in
    let (id, _) := dict_id (c_dic c) word in
    match filters_any (corpus_filters (c_max c) (c_min c)) false id (c_dic c) with
    | Err e => (b, Err e)
    | Panic => (b, Panic)
    | Ret true => (b, Ret tt)
    | Ret false =>
      if Nat.ltb (b_cursor b) (length (b_ids b)) then
        let ids := upd (b_ids b) (b_cursor b) id in
        let cursor := S (b_cursor b) in
        if Nat.eqb cursor size
        then ({| b_cursor := 0; b_ids := repeat 0 size; b_sent := b_sent b ++ [ids] |}, Ret tt)
        else ({| b_cursor := cursor; b_ids := ids; b_sent := b_sent b |}, Ret tt)
      else (b, Panic)                                             (* ids[cursor] *)
    end.

  (** fs.go:58-85, [BatchWords] on a reader [r] (the second pass may see a reader that fails
      where the first did not): everything sent on the channel, whether it was closed, and
      the result. *)
  Definition fs_batch_words (c : corpus) (r : reader) (batch_size : Z)
    : list (list nat) * bool * outcome unit :=
    if (batch_size <? 0)%Z then ([], false, Panic) else
    let size := Z.to_nat batch_size in
    match read_word r (batch_word c size) {| b_cursor := 0; b_ids := repeat 0 size; b_sent := [] |} with
    | (b, Ret _) => (b_sent b ++ [firstn (b_cursor b) (b_ids b)], true, Ret tt)
    | (b, o) => (b_sent b, false, o)
    end.

  (** memory.go:67-69, [BatchWords] of the in-memory corpus does nothing. *)
  Definition mem_batch_words (c : corpus) (batch_size : Z) : list (list nat) * bool * outcome unit :=
    ([], false, Ret tt).
End Load.
