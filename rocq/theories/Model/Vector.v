(** * Model of WordVector and Save

    pkg/model/word2vec/word2vec.go, pkg/model/glove/glove.go, pkg/model/lexvec/lexvec.go and
    pkg/model/modelutil/vector/vector.go *)
From Verif.Lib Require Import Go F64.
From Verif.Model Require Import Dictionary Corpus Matrix Cells Word2vec Options Train FmtFloat.
Local Open Scope Z_scope.

(** vector.go:34-39. *)
Definition single_type : string := "single".
(** vector.go:38. *)
Definition agg_type : string := "agg".

(** The callbacks' loop [for i := 0; i < Dim; i++ { vec[i] = get i }], where [get] may panic. word2vec.go:240-242, 248-250, glove.go:187-189, 195-197, lexvec.go:266-268, 275-277. *)
Fixpoint vec_loop (get : Z -> outcome f64) (n : nat) (i : Z) (vec : list f64) : outcome (list f64) :=
  match n with
  | O => Ret vec
  | S k => obind (get i) (fun x =>
           match zindex vec i with
           | Some _ => vec_loop get k (i + 1) (upd vec (Z.to_nat i) x)
           | None => Panic
           end)
  end.

(** matrix.go:29-31 with such a callback (Matrix.mat_fill has callbacks that cannot panic). *)
Fixpoint vec_rows (fn : Z -> list f64 -> outcome (list f64)) (n : nat) (i : Z) (m : matrix) : outcome matrix :=
  match n with
  | O => Ret m
  | S k => obind (mat_slice m i) (fun r => obind (fn i r) (fun r' => vec_rows fn k (i + 1) (mat_store m i r')))
  end.

(** matrix.go:23-33, [New]: word2vec.go:238, 246, glove.go:185, 193, lexvec.go:264, 273. *)
Definition vec_matrix (row dim : Z) (get : Z -> Z -> outcome f64) : outcome matrix :=
  if row * dim <? 0 then Panic
  else vec_rows (fun r => vec_loop (get r) (Z.to_nat dim) 0) (Z.to_nat row) 0
                (Mat (repeat fzero (Z.to_nat (row * dim))) row dim).

(** The two right-hand sides used below. word2vec.go:249, glove.go:188, lexvec.go:267. *)
Definition one_cell (m : matrix) (row i : Z) : outcome f64 := cell m row i.
(** word2vec.go:241, glove.go:196, lexvec.go:276: the sum of two such cells. *)
Definition two_cells (m : matrix) (row : Z) (m' : matrix) (row' i : Z) : outcome f64 :=
  obind (cell m row i) (fun a => obind (cell m' row' i) (fun b => Ret (fadd a b))).

(** word2vec.go:233-255, [WordVector]. *)
Definition w2v_word_vector (o : w2v_opts) (w : w2v) (typ : string) : outcome matrix :=
  let V := Z.of_nat (dict_len (c_dic (wv_corpus w))) in
  match wv_opt w with
  | NS ctx _ =>
      if String.eqb typ agg_type
      then vec_matrix V (w2v_Dim o) (fun row => two_cells (wv_param w) row ctx row)
      else vec_matrix V (w2v_Dim o) (one_cell (wv_param w))
  | HS _ _ _ => vec_matrix V (w2v_Dim o) (one_cell (wv_param w))
  end.

(** glove.go:181-202, [WordVector]. *)
Definition glv_word_vector (o : glv_opts) (g : glv) (typ : string) : outcome matrix :=
  let V := Z.of_nat (dict_len (gl_dic g)) in
  if String.eqb typ agg_type
  then vec_matrix V (glv_Dim o) (one_cell (gl_param g))
  else vec_matrix V (glv_Dim o) (fun row => two_cells (gl_param g) row (gl_param g) (row + V)).

(** lexvec.go:260-282, [WordVector]. *)
Definition lxv_word_vector (o : lex_opts) (l : lxv) (typ : string) : outcome matrix :=
  let V := Z.of_nat (dict_len (c_dic (lx_corpus l))) in
  if String.eqb typ agg_type
  then vec_matrix V (lex_Dim o) (one_cell (lx_param l))
  else vec_matrix V (lex_Dim o) (fun row => two_cells (lx_param l) row (lx_param l) (row + V)).

(** ** Save *)

(** vector.go:53-55: [for j := 0; j < mat.Col(); j++ { fmt.Fprintf(&buf, "%f ", mat.Slice(i)[j]) }]. *)
Fixpoint save_cells (m : matrix) (i : Z) (n : nat) (j : Z) (buf : gostring) : outcome gostring :=
  match n with
  | O => Ret buf
  | S k => obind (cell m i j) (fun x => save_cells m i k (j + 1) (buf ++ fmt_f x ++ bs " "))
  end.

(** The newline of fmt.Fprintln. vector.go:56. *)
Definition newline : gostring := [x0a].

(** vector.go:50-62, the loop over the ids; [i%logBatch] is only computed when verbose. *)
Fixpoint save_rows (d : dict) (m : matrix) (verbose : bool) (log_batch : Z) (n : nat) (i : Z) (buf : gostring)
  : outcome gostring :=
  match n with
  | O => Ret buf
  | S k =>
      obind (dict_word d i) (fun '(w, _) =>
      obind (save_cells m i (Z.to_nat (m_col m)) 0 (buf ++ w ++ bs " ")) (fun buf1 =>
      if verbose && (log_batch =? 0) then Panic
      else save_rows d m verbose log_batch k (i + 1) (buf1 ++ newline)))
  end.

(** The destination: one call of Write with some bytes gives a new state, the reported number of
    bytes and whether it returned an error. The argument [f] of vector.go:41. *)
Definition writer (W : Type) := W -> list byte -> W * (Z * bool).

(** bufio.Writer (not part of the repository): WriteString and the deferred Flush hand the text to
    the destination in consecutive pieces (which pieces depends on the buffer size: [pieces] is
    arbitrary) and stop at the first call that returns an error or reports fewer bytes. A
    destination's own WriteString method is not modelled. vector.go:45-46, 63. *)
Fixpoint bufio_write {W} (wr : writer W) (pieces : list (list byte)) (st : W) : W :=
  match pieces with
  | [] => st
  | p :: ps => let '(st', (n, e)) := wr st p in
               if e || (n <? Z.of_nat (length p)) then st' else bufio_write wr ps st'
  end.

(** vector.go:41-68, [Save]. The results of WriteString and of the deferred Flush are not used.
    When the loop panics nothing was given to the bufio.Writer yet, so its Flush writes nothing. *)
Definition save {W} (wr : writer W) (cut : gostring -> list (list byte))
  (d : dict) (m : matrix) (verbose : bool) (log_batch : Z) (st : W) : W * outcome unit :=
  if negb (Z.of_nat (dict_len d) =? m_row m) then (st, Err "different for length of dic and row of matrix")
  else match save_rows d m verbose log_batch (dict_len d) 0 [] with
       | Ret text => (bufio_write wr (cut text) st, Ret tt)
       | Err e => (st, Err e)
       | Panic => (st, Panic)
       end.

(** word2vec.go:229-231, glove.go:177-179, lexvec.go:256-258, [Save]. *)
Definition model_save {W} (wr : writer W) (cut : gostring -> list (list byte))
  (d : dict) (word_vector : string -> outcome matrix) (verbose : bool) (log_batch : Z) (typ : string) (st : W)
  : W * outcome unit :=
  match word_vector typ with
  | Ret m => save wr cut d m verbose log_batch st
  | Err e => (st, Err e)
  | Panic => (st, Panic)
  end.
