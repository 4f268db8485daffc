(** * Model objects over several calls: Train again, failed Train, WordVector and Save at any time

    Train.v and Run.v describe one call of Train; here are the fields of the model value
    (word2vec.go:39-51, glove.go:38-47, lexvec.go:40-50) as they are left by every call, also by one that
    returns an error half-way. [None] is nil. The fields that WordVector, Save and the next Train cannot
    see (subsampler, mod) are left out. A panic ends the program, so what it leaves is not followed. *)
From Coq Require Import Sorting.Permutation.
From Verif.Lib Require Import Go F64.
From Verif.Model Require Import Dictionary Corpus Reader Matrix Cells Subsample Huffman Word2vec Glove Lexvec Cooc Options Train Sigmoid LearningRate Sched Run Vector.
Local Open Scope Z_scope.

(** [ob_aux]: the optimizer of word2vec, the solver of GloVe, nothing in LexVec. word2vec.go:39-51, glove.go:38-47, lexvec.go:40-50. *)
Record obj (Aux : Type) := Obj { ob_corpus : option corpus; ob_param : option matrix; ob_aux : option Aux; ob_lr : f64 }.
Arguments Obj {Aux}. Arguments ob_corpus {Aux}. Arguments ob_param {Aux}. Arguments ob_aux {Aux}. Arguments ob_lr {Aux}.

(** word2vec.go:62-72, glove.go:58-66, lexvec.go:61-71, [NewForOptions]. *)
Definition fresh {Aux} (lr : f64) : obj Aux := Obj None None None lr.

(** Statements that assign fields and then may fail. As in word2vec.go:74-133. *)
Definition sbind {B A C} (p : B * outcome A) (f : B -> A -> B * outcome C) : B * outcome C :=
  match p with (b, Ret a) => f b a | (b, Err e) => (b, Err e) | (b, Panic) => (b, Panic) end.

(** word2vec.go:76, 78. *)
Definition set_corpus {Aux} (b : obj Aux) c : obj Aux := Obj (Some c) (ob_param b) (ob_aux b) (ob_lr b).
(** word2vec.go:87. *)
Definition set_param {Aux} (b : obj Aux) m : obj Aux := Obj (ob_corpus b) (Some m) (ob_aux b) (ob_lr b).
(** word2vec.go:110, 115, glove.go:100, 102. *)
Definition set_aux {Aux} (b : obj Aux) (a : Aux) : obj Aux := Obj (ob_corpus b) (ob_param b) (Some a) (ob_lr b).

Section Life.
Variables (lower : gostring -> gostring).

(** word2vec.go:75-83, glove.go:69-84, lexvec.go:74-89: the corpus is replaced before it is loaded. *)
Definition load_step {Aux} (in_memory to_lower : bool) (maxc minc : Z) (verbose : bool) (log_batch : Z)
  (with_co : option with_cooc) (doc : reader) (b : obj Aux) : obj Aux * outcome corpus :=
  let load := if in_memory then mem_load lower verbose log_batch else fs_load lower verbose log_batch in
  let (c, r) := load (corpus_new doc to_lower maxc minc) with_co in
  (set_corpus b c, obind r (fun _ => Ret c)).

(** ** word2vec *)
(** word2vec.go:39-51. *)
Definition w2v_obj := obj optimizer.

(** word2vec.go:74-122. *)
Definition w2v_prepare (rand : nat -> f64) (o : w2v_opts) (doc : reader) (b : w2v_obj) : w2v_obj * outcome w2v :=
  sbind (load_step (w2v_DocInMemory o) (w2v_ToLower o) (w2v_MaxCount o) (w2v_MinCount o)
                   (w2v_Verbose o) (w2v_LogBatch o) None doc b) (fun b c =>
  let d := c_dic c in let V := Z.of_nat (dict_len d) in let dim := w2v_Dim o in
  sbind (match mat_new V dim (fill_row (centered rand dim)) 0%nat with
         | Ret (k, param) => (set_param b param, Ret (k, param))
         | Err e => (b, Err e) | Panic => (b, Panic) end) (fun b '(k, param) =>
  sbind (b, subsample_new d (w2v_SubsampleThreshold o)) (fun b samples =>
  sbind (b, if String.eqb (w2v_ModelType o) skipgram_type then new_mod SkipGram (w2v_Goroutines o) dim
            else if String.eqb (w2v_ModelType o) cbow_type then new_mod Cbow (w2v_Goroutines o) dim
            else Err "invalid model") (fun b md =>
  sbind (b, if String.eqb (w2v_OptimizerType o) ns_type then
              obind (mat_new V dim (fill_row (centered rand dim)) k) (fun '(_, ctx) =>
              Ret (NS ctx (w2v_NegativeSampleSize o)))
            else if String.eqb (w2v_OptimizerType o) hs_type then
              obind (huffman_tree d dim) (fun '(h, set) => Ret (HS h set (w2v_MaxDepth o)))
            else Err "invalid optimizer") (fun b opt =>
  (set_aux b opt, Ret (W2v c param samples md opt))))))).

(** word2vec.go:74-133, [Train] on the object [b]: it returns [r] and leaves [b']. [next] and [rand] are
    what the process' random generators hold at that time. In a successful call the observer goroutine
    may update the rate for some time after the call has returned (Run.trains covers all those times). *)
Inductive w2v_call (exp : f64 -> f64) (o : w2v_opts) (b : w2v_obj) (doc : reader) : w2v_obj -> outcome unit -> Prop :=
| w2v_fails rand b' e : w2v_prepare rand o doc b = (b', Err e) -> w2v_call exp o b doc b' (Err e)
| w2v_succeeds rand next b' w0 x v : w2v_prepare rand o doc b = (b', Ret w0) -> w2v_source lower o w0 = Ret x ->
    trains (w2v_cfg o) (w2v_effects (sigmoid (sig_table exp)) rand o w0) (Z.to_nat (w2v_Iter o)) (fun _ => x)
           (w2v_start next (ob_lr b') w0) v ->
    w2v_call exp o b doc (Obj (ob_corpus b') (Some (wv_m v)) (Some (wv_o v)) (wv_lr v)) (Ret tt).

(** A row of a matrix that may be nil. As read at word2vec.go:241, 249. *)
Definition nil_cell (m : option matrix) (row i : Z) : outcome f64 := match m with Some m => cell m row i | None => Panic end.
(** The sum of two such cells, word2vec.go:241, glove.go:196, lexvec.go:276. *)
Definition two_nil_cells (m : option matrix) (row : Z) (m' : option matrix) (row' i : Z) : outcome f64 :=
  obind (nil_cell m row i) (fun a => obind (nil_cell m' row' i) (fun b => Ret (fadd a b))).

(** word2vec.go:233-255. *)
Definition w2v_vectors (o : w2v_opts) (b : w2v_obj) (typ : string) : outcome matrix :=
  match ob_corpus b with
  | None => Panic
  | Some c =>
    let V := Z.of_nat (dict_len (c_dic c)) in
    match ob_aux b with
    | Some (NS ctx _) =>
        if String.eqb typ agg_type
        then vec_matrix V (w2v_Dim o) (fun row => two_nil_cells (ob_param b) row (Some ctx) row)
        else vec_matrix V (w2v_Dim o) (nil_cell (ob_param b))
    | _ => vec_matrix V (w2v_Dim o) (nil_cell (ob_param b))
    end
  end.

(** glove.go:181-202, lexvec.go:260-282. *)
Definition pair_vectors {Aux} (dim : Z) (b : obj Aux) (typ : string) : outcome matrix :=
  match ob_corpus b with
  | None => Panic
  | Some c =>
    let V := Z.of_nat (dict_len (c_dic c)) in
    if String.eqb typ agg_type
    then vec_matrix V dim (nil_cell (ob_param b))
    else vec_matrix V dim (fun row => two_nil_cells (ob_param b) row (ob_param b) (row + V))
  end.

(** word2vec.go:229-231, glove.go:177-179, lexvec.go:256-258: [vectors] is WordVector of the object. *)
Definition obj_save {Aux W} (wr : writer W) (cut : gostring -> list (list byte)) (vectors : obj Aux -> string -> outcome matrix)
  (verbose : bool) (log_batch : Z) (b : obj Aux) (typ : string) (st : W) : W * outcome unit :=
  match ob_corpus b with
  | None => (st, Panic)
  | Some c => model_save wr cut (c_dic c) (vectors b) verbose log_batch typ st
  end.

Variables (flog : f64 -> f64) (fpow : f64 -> f64 -> f64).

(** ** GloVe *)
(** glove.go:38-47. *)
Definition glv_obj := obj solver.

(** glove.go:68-111. *)
Definition glv_prepare (rand : nat -> f64) (order : list (Z * f64) -> list (Z * f64)) (o : glv_opts) (doc : reader) (b : glv_obj) : glv_obj * outcome glv :=
  sbind (load_step (glv_DocInMemory o) (glv_ToLower o) (glv_MaxCount o) (glv_MinCount o)
                   (glv_Verbose o) (glv_LogBatch o)
                   (Some {| w_type := glv_CountType o; w_window := glv_Window o |}) doc b) (fun b c =>
  let d := c_dic c in let V := Z.of_nat (dict_len d) in let dim := glv_Dim o in
  sbind (match mat_new (V * 2) (dim + 1) (fill_row (scaled rand dim)) 0%nat with
         | Ret (_, param) => (set_param b param, Ret param)
         | Err e => (b, Err e) | Panic => (b, Panic) end) (fun b param =>
  sbind (b, if String.eqb (glv_SolverType o) sgd_type then Ret Stochastic
            else if String.eqb (glv_SolverType o) adagrad_type then
              obind (new_adagrad V dim) (fun g => Ret (AdaGrad g))
            else Err "invalid solver") (fun b sol =>
  (set_aux b sol,
   match c_cooc c with
   | None => Panic
   | Some co =>
       obind (make_items flog fpow (glv_Xmax o) (glv_Alpha o) (glv_Verbose o) (glv_LogBatch o) (order (co_ma co)))
             (fun items => Ret (Glv d param sol items))
   end)))).

(** glove.go:68-135; [order]: the iteration order of the map, another one in every call. GloVe has no currentlr. *)
Inductive glv_call (o : glv_opts) (b : glv_obj) (doc : reader) : glv_obj -> outcome unit -> Prop :=
| glv_fails rand order b' e : glv_prepare rand order o doc b = (b', Err e) -> glv_call o b doc b' (Err e)
| glv_succeeds rand order b' g0 x m sol : (forall l, Sorting.Permutation.Permutation (order l) l) ->
    glv_prepare rand order o doc b = (b', Ret g0) -> glv_source o g0 = Ret x ->
    trains (glv_cfg o) (glv_effects o (Z.of_nat (dict_len (gl_dic g0)))) (Z.to_nat (glv_Iter o)) (fun _ => x)
           (gl_param g0, gl_solver g0) (m, sol) ->
    glv_call o b doc (Obj (ob_corpus b') (Some m) (Some sol) (ob_lr b')) (Ret tt).

(** ** LexVec *)
(** lexvec.go:40-50. *)
Definition lxv_obj := obj unit.

(** lexvec.go:73-103 with 117-120 and 148-151. *)
Definition lxv_prepare (rand : nat -> f64) (order : list (Z * f64) -> list (Z * f64)) (o : lex_opts) (doc : reader) (b : lxv_obj) : lxv_obj * outcome lxv :=
  sbind (load_step (lex_DocInMemory o) (lex_ToLower o) (lex_MaxCount o) (lex_MinCount o)
                   (lex_Verbose o) (lex_BatchSize o)
                   (Some {| w_type := increment; w_window := lex_Window o |}) doc b) (fun b c =>
  let d := c_dic c in let V := Z.of_nat (dict_len d) in let dim := lex_Dim o in
  sbind (match mat_new (V * 2) dim (fill_row (centered rand dim)) 0%nat with
         | Ret (_, param) => (set_param b param, Ret param)
         | Err e => (b, Err e) | Panic => (b, Panic) end) (fun b param =>
  sbind (b, subsample_new d (lex_SubsampleThreshold o)) (fun b samples =>
  (b,
   match c_cooc c with
   | None => Panic
   | Some co =>
       obind (lex_make_items flog fpow d (Z.of_nat (c_len c)) (lex_RelationType o) (lex_Smooth o)
                             (lex_Verbose o) (lex_LogBatch o) (order (co_ma co)))
             (fun items => Ret (Lxv c param samples items))
   end)))).

(** lexvec.go:73-171. *)
Inductive lxv_call (o : lex_opts) (b : lxv_obj) (doc : reader) : lxv_obj -> outcome unit -> Prop :=
| lxv_fails rand order b' e : lxv_prepare rand order o doc b = (b', Err e) -> lxv_call o b doc b' (Err e)
| lxv_succeeds rand order next b' l0 x v : (forall l, Sorting.Permutation.Permutation (order l) l) ->
    lxv_prepare rand order o doc b = (b', Ret l0) -> lxv_source lower o l0 = Ret x ->
    trains (lxv_cfg o) (lxv_effects rand o l0) (Z.to_nat (lex_Iter o)) (fun _ => x) (lxv_start next (ob_lr b') l0) v ->
    lxv_call o b doc (Obj (ob_corpus b') (Some (lv_m v)) None (lv_lr v)) (Ret tt).
End Life.

(** A sequence of Train calls on a new object, with their results: [history call lr h b] means that after
    them the object is [b]. WordVector and Save only read the object, so they need no place here. The calls of Train, word2vec.go:74, glove.go:68, lexvec.go:73. *)
Inductive history {Aux} (call : obj Aux -> reader -> obj Aux -> outcome unit -> Prop) (lr : f64) : list (reader * outcome unit) -> obj Aux -> Prop :=
| h_new : history call lr [] (fresh lr)
| h_train h b doc b' r : history call lr h b -> call b doc b' r -> history call lr (h ++ [(doc, r)]) b'.
