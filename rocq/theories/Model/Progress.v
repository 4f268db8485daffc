(** * Model of the progress reports (option Verbose) of Load, makeItems, observe and Save

    pkg/util/verbose/verbose.go, pkg/corpus/memory/memory.go, pkg/corpus/fs/fs.go,
    pkg/model/glove/item.go and glove.go, pkg/model/lexvec/item.go and lexvec.go,
    pkg/model/word2vec/word2vec.go, pkg/model/modelutil/vector/vector.go.

    The functions here are those of Corpus.v, Glove.v, Lexvec.v, Vector.v and Run.v with what they print on standard
    output added. Simplification: the elapsed time at the end of each line (pkg/util/clock) is left out; one Printf call
    is one line, also when it ends in "\r" only. *)
From Verif.Lib Require Import Go F64.
From Verif.Model Require Import Dictionary Encode Cooc Reader Corpus Matrix Glove Lexvec FmtFloat Vector Sched Run.
Local Open Scope Z_scope.

(** One call of fmt.Printf("<verb> %d <noun> %v\r"), or "...\r\n" when [l_last]. memory.go:96, 104, 127, 133. *)
Record line := Line { l_verb : string; l_noun : string; l_count : Z; l_last : bool }.

Section Print.
Variables (verbose : bool) (lb : Z).

(** [verbose.Do(func() { if n%logBatch == 0 { fmt.Printf(...) } })]: memory.go:94-98, verbose.go:27-31. Go's % is
    [Z.rem] and panics for 0. [out] is what was printed before. *)
Definition tell (verb noun : string) (n : Z) (out : list line) : list line * outcome unit :=
  if verbose then
    if lb =? 0 then (out, Panic)
    else if Z.rem n lb =? 0 then (out ++ [Line verb noun n false], Ret tt)
    else (out, Ret tt)
  else (out, Ret tt).

(** [verbose.Do(func() { fmt.Printf("...\r\n", n, ...) })]: memory.go:103-105. *)
Definition tell_end (verb noun : string) (n : Z) (out : list line) : list line :=
  if verbose then out ++ [Line verb noun n true] else out.

(** memory.go:85-101 or fs.go:101-115: what the callback does to the corpus ([load_word], Corpus.v), then its report. *)
Definition print_word (load_word : callback corpus gostring) : callback (corpus * list line) gostring := fun '(c, out) word =>
  let (c', _) := load_word c word in
  let (out', o) := tell "read" "words" (Z.of_nat (c_len c')) out in
  ((c', out'), o).

(** memory.go:121-129 / fs.go:136-144: Add, [cursor++], report. *)
Definition print_add : callback (cooc * nat * list line) (nat * nat) := fun '(co, cursor, out) p =>
  match co_add co (Z.of_nat (fst p)) (Z.of_nat (snd p)) with
  | (co', Ret _) => let (out', o) := tell "read" "tuples" (Z.of_nat (S cursor)) out in ((co', S cursor, out'), o)
  | (co', o) => ((co', cursor, out), o)
  end.

(** memory.go:120-130, the inner loop. *)
Fixpoint print_inner (fuel : nat) (window : Z) (idoc : list nat) (i j : nat) (s : cooc * nat * list line)
  : (cooc * nat * list line) * outcome unit :=
  match fuel with
  | O => (s, Ret tt)
  | S fuel =>
    if (Nat.ltb j (length idoc) && (Z.of_nat j <=? Z.of_nat i + window)%Z)%bool
    then match print_add s (nth i idoc 0%nat, nth j idoc 0%nat) with
         | (s', Ret _) => print_inner fuel window idoc i (S j) s'
         | res => res
         end
    else (s, Ret tt)
  end.

(** memory.go:119, the outer loop. *)
Definition print_outer (window : Z) (idoc : list nat) (s : cooc * nat * list line) : (cooc * nat * list line) * outcome unit :=
  for_each (fun s i => print_inner (length idoc) window idoc i (S i) s) s (seq 0 (length idoc)).

(** fs.go:133-146. *)
Definition print_fs_pair (d : dict) : callback (cooc * nat * list line) (gostring * gostring) := fun s p =>
  let (id1, _) := dict_id d (fst p) in
  let (id2, _) := dict_id d (snd p) in
  print_add s (id1, id2).

(** memory.go:83-138 / fs.go:99-155, [Load]; [first] is the callback of the first pass without its report, [second] the
    co-occurrence pass. The line at the end of a pass is printed only if the pass did not fail. *)
Definition print_load (first : callback corpus gostring)
  (second : corpus -> Z -> cooc * nat * list line -> (cooc * nat * list line) * outcome unit)
  (c : corpus) (w : option with_cooc) : (corpus * list line) * outcome unit :=
  match read_word (c_doc c) (print_word first) (c, []) with
  | ((c, out), Ret _) =>
    let out := tell_end "read" "words" (Z.of_nat (c_len c)) out in
    match w with
    | None => ((c, out), Ret tt)
    | Some w =>
      match co_new (w_type w) with
      | Ret co =>
        match second c (w_window w) (co, 0%nat, out) with
        | ((co', cursor, out'), Ret _) => ((set_cooc c (Some co'), tell_end "read" "tuples" (Z.of_nat cursor) out'), Ret tt)
        | ((co', _, out'), o) => ((set_cooc c (Some co'), out'), o)
        end
      | Err e => ((set_cooc c None, out), Err e)
      | Panic => ((c, out), Panic)
      end
    end
  | res => res
  end.

(** memory.go:83-138. *)
Definition print_mem_load (lower : gostring -> gostring) : corpus -> option with_cooc -> (corpus * list line) * outcome unit :=
  print_load (mem_load_word lower false 0) (fun c win s => print_outer win (c_idoc c) s).
(** fs.go:99-155. *)
Definition print_fs_load (lower : gostring -> gostring) : corpus -> option with_cooc -> (corpus * list line) * outcome unit :=
  print_load (fs_load_word lower false 0)
             (fun c win s => read_word_with_forward_context (c_doc c) win (print_fs_pair (c_dic c)) s).

(** glove/item.go:32-59, [makeItems]; [idx] as in the code. *)
Fixpoint print_glv_items (flog : f64 -> f64) (fpow : f64 -> f64 -> f64) (xmax : Z) (alpha : f64)
  (em : list (Z * f64)) (idx : nat) (out : list line) : list line * outcome (list item) :=
  match em with
  | [] => (tell_end "build" "items" (Z.of_nat idx) out, Ret [])
  | kv :: em' =>
      match tell "build" "items" (Z.of_nat (S idx)) out with
      | (out1, Ret _) =>
          let (out2, r) := print_glv_items flog fpow xmax alpha em' (S idx) out1 in
          (out2, obind r (fun items => Ret (make_item flog fpow xmax alpha kv :: items)))
      | (out1, Err e) => (out1, Err e)
      | (out1, Panic) => (out1, Panic)
      end
  end.

(** lexvec/item.go:27-54, [makeItems]; an error of calculateRelation ends it without the last line. *)
Fixpoint print_lxv_items (flog : f64 -> f64) (fpow : f64 -> f64 -> f64) (d : dict) (typ : string) (smooth logTotal : f64)
  (em res : list (Z * f64)) (idx : nat) (out : list line) : list line * outcome (list (Z * f64)) :=
  match em with
  | [] => (tell_end "build" "items" (Z.of_nat idx) out, Ret res)
  | (enc, f) :: em' =>
      let (u1, u2) := decode_bigram enc in
      match calculate_relation flog fpow d typ smooth (wrap_int u1) (wrap_int u2) f logTotal with
      | Ret v =>
          match tell "build" "items" (Z.of_nat (S idx)) out with
          | (out1, Ret _) => print_lxv_items flog fpow d typ smooth logTotal em' (mset Z.eq_dec enc v res) (S idx) out1
          | (out1, Err e) => (out1, Err e)
          | (out1, Panic) => (out1, Panic)
          end
      | Err e => (out, Err e)
      | Panic => (out, Panic)
      end
  end.

(** vector.go:50-62: here the count is the id [i] itself, before it is incremented. *)
Fixpoint print_save_rows (d : dict) (m : matrix) (n : nat) (i : Z) (buf : gostring) (out : list line)
  : list line * outcome gostring :=
  match n with
  | O => (out, Ret buf)
  | S k =>
      match obind (dict_word d i) (fun '(w, _) => save_cells m i (Z.to_nat (m_col m)) 0 (buf ++ w ++ bs " ")) with
      | Ret buf1 =>
          match tell "saved" "words" i out with
          | (out1, Ret _) => print_save_rows d m k (i + 1) (buf1 ++ newline) out1
          | (out1, Err e) => (out1, Err e)
          | (out1, Panic) => (out1, Panic)
          end
      | Err e => (out, Err e)
      | Panic => (out, Panic)
      end
  end.

(** vector.go:41-68, [Save]. *)
Definition print_save {W} (wr : writer W) (cut : gostring -> list (list byte)) (d : dict) (m : matrix) (st : W)
  : (W * list line) * outcome unit :=
  if negb (Z.of_nat (dict_len d) =? m_row m) then ((st, []), Err "different for length of dic and row of matrix")
  else match print_save_rows d m (dict_len d) 0 [] [] with
       | (out, Ret text) => ((bufio_write wr (cut text) st, tell_end "saved" "words" (Z.of_nat (dict_len d)) out), Ret tt)
       | (out, Err e) => ((st, out), Err e)
       | (out, Panic) => ((st, out), Panic)
       end.

(** ** The observers, word2vec.go:207-227, glove.go:162-175, lexvec.go:234-254

    What observe prints when it goes from [o] to [o']: at the end of the loop body for tick [n] (word2vec.go:219-223)
    and after the loop (:225-227). GloVe's cnt counts only when verbose, so it is the number of ticks whenever it is printed. *)
Definition observer_says (noun : string) (o o' : obspc) : list line :=
  match o, o' with
  | OBusy n, ORecv _ => fst (tell "trained" noun (Z.of_nat n) [])
  | ORecv n, OEnd _ => tell_end "trained" noun (Z.of_nat n) []
  | _, _ => []
  end.

Section Runs.
Context {A X : Type}.
(** What one step of a training run prints; every line is tagged with the iteration (a ghost: the program prints no such
    tag). word2vec.go:142-157. *)
Definition step_says (noun : string) (l l' : list (st A)) : list (nat * line) :=
  concat (map (fun '(j, (s, s')) => map (pair j) (observer_says noun (obs s) (obs s')))
              (combine (seq 0 (length l)) (combine l l'))).

(** Executions as [Run.vruns], with all that was printed. word2vec.go:135-227. *)
Inductive talks (c : cfg) (E : effects A X) (iter : nat) (mk : nat -> source A) (noun : string) (v0 : X)
  : list (st A) -> X -> list (nat * line) -> Prop :=
| talks_0 : talks c E iter mk noun v0 [init c (mk 0%nat)] v0 []
| talks_S l v out l' v' : talks c E iter mk noun v0 l v out -> vrun_step c E iter mk l v (Ret (l', v')) ->
    talks c E iter mk noun v0 l' v' (out ++ step_says noun l l').
End Runs.
End Print.
