(** * The worker goroutines, statement by statement on shared memory

    Model/Run.v treats one trainOne call as one step. Here every read and every write of a shared
    variable is a step of its own, and any number of goroutines interleave arbitrarily: the matrices
    and the generator of NextRandom are shared without any synchronisation (pkg/model/glove/solver.go,
    pkg/model/lexvec/lexvec.go, pkg/model/word2vec, pkg/model/modelutil/modelutil.go).

    Memory is sequentially consistent with word-sized accesses (Go on 64-bit machines does not tear
    float64 and uint64 accesses). Semaphore, wait group and channels only remove interleavings and
    are not repeated here (Model/Sched.v). Hierarchical softmax is Model/RaceHS.v. *)
From Verif.Lib Require Import Go F64.
From Verif.Model Require Import ModelUtil Encode Matrix Cells Subsample Sigmoid Dictionary Corpus Word2vec Glove Lexvec Options Train.
Local Open Scope Z_scope.

(** A goroutine's remaining program, with the accesses to shared variables as its steps. The flag of
    the matrix accesses is false for the parameters, true for the solver's or optimizer's own matrix
    (AdaGrad's gradsq, the context matrix of negative sampling). The bodies of word2vec.go:182-205, glove.go:137-160, lexvec.go:173-197. *)
Inductive prog (R : Type) : Type :=
| PRet (r : R)
| PPanic
| PSlice (g : bool) (row : Z) (k : prog R)              (* m.Slice(row), only its bounds check *)
| PLoad (g : bool) (row i : Z) (k : f64 -> prog R)      (* read m.Slice(row)[i] *)
| PStore (g : bool) (row i : Z) (x : f64) (k : prog R)  (* m.Slice(row)[i] = x *)
| PLoadNext (k : Z -> prog R)                           (* read the package variable [next] *)
| PStoreNext (z : Z) (k : prog R)
| PLr (k : f64 -> prog R)                               (* read currentlr *)
| PRand (k : f64 -> prog R)                             (* rand.Float64(), which locks *)
| PLookup (x : f64) (k : f64 -> prog R).                (* sigtable.sigmoid(x); the table is read-only *)
Arguments PRet {R} r.
Arguments PPanic {R}.
Arguments PSlice {R} g row k.
Arguments PLoad {R} g row i k.
Arguments PStore {R} g row i x k.
Arguments PLoadNext {R} k.
Arguments PStoreNext {R} z k.
Arguments PLr {R} k.
Arguments PRand {R} k.
Arguments PLookup {R} x k.

(** Sequencing. Statements one after the other in word2vec.go:182-205, glove.go:137-160, lexvec.go:173-197. *)
Fixpoint pbind {R S} (p : prog R) (f : R -> prog S) : prog S :=
  match p with
  | PRet r => f r
  | PPanic => PPanic
  | PSlice g row k => PSlice g row (pbind k f)
  | PLoad g row i k => PLoad g row i (fun x => pbind (k x) f)
  | PStore g row i x k => PStore g row i x (pbind k f)
  | PLoadNext k => PLoadNext (fun z => pbind (k z) f)
  | PStoreNext z k => PStoreNext z (pbind k f)
  | PLr k => PLr (fun x => pbind (k x) f)
  | PRand k => PRand (fun x => pbind (k x) f)
  | PLookup x k => PLookup x (fun y => pbind (k y) f)
  end.

(** ** The programs *)

(** modelutil.go:26-29: [next = next*... + 11] is a read and a write, [return int(next % ...)] another read. *)
Definition p_next_random (value : Z) : prog Z :=
  PLoadNext (fun n => PStoreNext (lcg n) (PLoadNext (fun n' =>
  let m := value mod W64 in if m =? 0 then PPanic else PRet (int_of_u64 (n' mod m))))).

(** [v[i] -= t] and [v[i] += t]: a read and a write. solver.go:48-52, 91-95, lexvec.go:229-230. *)
Definition p_sub (g : bool) (row i : Z) (t : f64) : prog unit :=
  PLoad g row i (fun x => PStore g row i (fsub x t) (PRet tt)).
(** solver.go:87-88, 97-98: a read and a write. *)
Definition p_add (g : bool) (row i : Z) (t : f64) : prog unit :=
  PLoad g row i (fun x => PStore g row i (fadd x t) (PRet tt)).
(** The expression [m.Slice(row)[i]], e.g. lexvec.go:223. *)
Definition p_read (g : bool) (row i : Z) : prog f64 := PLoad g row i PRet.

(** solver.go:41-43, 80-82, lexvec.go:222-224. *)
Fixpoint p_dot (l1 l2 : Z) (n : nat) (i : Z) (diff : f64) : prog f64 :=
  match n with
  | O => PRet diff
  | S k => PLoad false l1 i (fun a => PLoad false l2 i (fun b =>
           p_dot l1 l2 k (i + 1) (fadd diff (fmul a b))))
  end.

(** solver.go:46-50, lexvec.go:226-231. *)
Fixpoint p_pairs (diff : f64) (l1 l2 : Z) (n : nat) (i : Z) : prog unit :=
  match n with
  | O => PRet tt
  | S k => PLoad false l2 i (fun b => PLoad false l1 i (fun a =>
           pbind (p_sub false l1 i (fmul diff b)) (fun _ =>
           pbind (p_sub false l2 i (fmul diff a)) (fun _ => p_pairs diff l1 l2 k (i + 1)))))
  end.

(** solver.go:38-53; [dim] is len(v1)-1. *)
Definition p_sgd (initlr : f64) (dim l1 l2 : Z) (f coef : f64) : prog unit :=
  PSlice false l1 (PSlice false l2 (
  pbind (p_dot l1 l2 (Z.to_nat dim) 0 fzero) (fun s =>
  PLoad false l1 dim (fun b1 => PLoad false l2 dim (fun b2 =>
  let diff := fmul (fadd s (fsub (fadd b1 b2) f)) (fmul coef initlr) in
  pbind (p_pairs diff l1 l2 (Z.to_nat dim) 0) (fun _ =>
  pbind (p_sub false l1 dim diff) (fun _ => p_sub false l2 dim diff))))))).

(** solver.go:85-93. *)
Fixpoint p_ada_loop (diff : f64) (l1 l2 : Z) (n : nat) (i : Z) : prog unit :=
  match n with
  | O => PRet tt
  | S k =>
      PLoad false l2 i (fun b => PLoad false l1 i (fun a =>
      let t1 := fmul diff b in let t2 := fmul diff a in
      pbind (p_add true l1 i (fmul t1 t1)) (fun _ =>
      pbind (p_add true l2 i (fmul t2 t2)) (fun _ =>
      PLoad true l1 i (fun q1 => PLoad true l2 i (fun q2 =>
      pbind (p_sub false l1 i (fdiv t1 (fsqrt q1))) (fun _ =>
      pbind (p_sub false l2 i (fdiv t2 (fsqrt q2))) (fun _ =>
      p_ada_loop diff l1 l2 k (i + 1)))))))))
  end.

(** solver.go:76-99. *)
Definition p_ada (initlr : f64) (dim l1 l2 : Z) (f coef : f64) : prog unit :=
  PSlice false l1 (PSlice false l2 (PSlice true l1 (PSlice true l2 (
  pbind (p_dot l1 l2 (Z.to_nat dim) 0 fzero) (fun s =>
  PLoad false l1 dim (fun b1 => PLoad false l2 dim (fun b2 =>
  let diff := fmul (fadd s (fsub (fadd b1 b2) f)) (fmul coef initlr) in
  pbind (p_ada_loop diff l1 l2 (Z.to_nat dim) 0) (fun _ =>
  PLoad true l1 dim (fun q1 =>
  pbind (p_sub false l1 dim (fdiv diff (fsqrt q1))) (fun _ =>
  PLoad true l2 dim (fun q2 =>
  pbind (p_sub false l2 dim (fdiv diff (fsqrt q2))) (fun _ =>
  let sq := fmul diff diff in
  pbind (p_add true l1 dim sq) (fun _ => p_add true l2 dim sq))))))))))))).

(** glove.go:152-156: one goroutine on its items. *)
Definition p_item (adagrad : bool) (initlr : f64) (dim V : Z) (it : item) : prog unit :=
  let one := if adagrad then p_ada initlr dim else p_sgd initlr dim in
  pbind (one (it_l1 it) (it_l2 it + V) (it_f it) (it_coef it)) (fun _ =>
  one (it_l1 it + V) (it_l2 it) (it_f it) (it_coef it)).
(** glove.go:153-157, the loop. *)
Fixpoint p_items (adagrad : bool) (initlr : f64) (dim V : Z) (items : list item) : prog unit :=
  match items with
  | [] => PRet tt
  | it :: items' => pbind (p_item adagrad initlr dim V it) (fun _ => p_items adagrad initlr dim V items')
  end.

(** lexvec.go:202-217, model.go:60-77, 133-144: the window loop (as Model/Window.v); [St] are the
    goroutine's own variables. *)
Fixpoint p_win_loop {St} (body : Z -> St -> prog St) (len pos window : Z) (n : nat) (a : Z) (st : St) : prog St :=
  match n with
  | O => PRet st
  | S k =>
      pbind (if a =? window then PRet st
             else let c := pos - window + a in
                  if (c <? 0) || (c >=? len) then PRet st else body c st)
            (p_win_loop body len pos window k (a + 1))
  end.
(** lexvec.go:202-217, model.go:60-77, 133-144, from [del] on. *)
Definition p_windowed {St} (body : Z -> St -> prog St) (len pos window del : Z) (st : St) : prog St :=
  p_win_loop body len pos window (Z.to_nat (window * 2 + 1 - del - del)) del st.

(** lexvec.go:220-232; currentlr is read inside. *)
Definition p_lex_update (dim l1 l2 : Z) (f : f64) : prog unit :=
  pbind (p_dot l1 l2 (Z.to_nat dim) 0 fzero) (fun s =>
  PLr (fun lr => p_pairs (fmul (fsub s f) lr) l1 l2 (Z.to_nat dim) 0)).

(** lexvec.go:212-216. *)
Fixpoint p_lex_negatives (dim : Z) (items : list (Z * f64)) (V w : Z) (n : nat) : prog unit :=
  match n with
  | O => PRet tt
  | S k =>
      pbind (p_next_random V) (fun sample =>
      let enc := encode_bigram (wrap64 w) (wrap64 sample) in
      pbind (p_lex_update dim w (sample + V) (lookup0 items enc)) (fun _ =>
      p_lex_negatives dim items V w k))
  end.

(** lexvec.go:210-216. *)
Definition p_lex_body (dim : Z) (items : list (Z * f64)) (V neg : Z) (doc : list Z) (pos c : Z) (_ : unit) : prog unit :=
  match zindex doc pos, zindex doc c with
  | Some w, Some u =>
      let enc := encode_bigram (wrap64 w) (wrap64 u) in
      pbind (p_lex_update dim w u (lookup0 items enc)) (fun _ =>
      p_lex_negatives dim items V w (Z.to_nat neg))
  | _, _ => PPanic
  end.

(** lexvec.go:199-218. *)
Definition p_lex_train_one (dim : Z) (items : list (Z * f64)) (V window neg : Z) (doc : list Z) (pos : Z) : prog unit :=
  pbind (p_next_random window) (fun del =>
  p_windowed (p_lex_body dim items V neg doc pos) (Z.of_nat (length doc)) pos window del tt).

(** lexvec.go:189-194, word2vec.go:197-202: the loop over the document with the subsampler. *)
Fixpoint p_visit (samples : list f64) (train : Z -> prog unit) (pos : Z) (todo : list nat) : prog unit :=
  match todo with
  | [] => PRet tt
  | id :: todo' =>
      PRand (fun x =>
      match trial samples id x with
      | Ret b => pbind (if b then train pos else PRet tt) (fun _ => p_visit samples train (pos + 1) todo')
      | _ => PPanic
      end)
  end.

(** lexvec.go:189-194. *)
Definition p_lex_worker (dim : Z) (items : list (Z * f64)) (V window neg : Z) (samples : list f64) (doc : list nat) : prog unit :=
  p_visit samples (p_lex_train_one dim items V window neg (map Z.of_nat doc)) 0 doc.

(** ** word2vec with negative sampling *)

(** The argument [ctx] of optim is a row of the shared parameters (skip-gram) or the goroutine's own
    vector (CBOW). model.go:71-73, 117-119. *)
Inductive vsrc := Shared (row : Z) | Own (v : list f64).
(** Reading a component of it, optimizer.go:76, 88. *)
Definition p_src (c : vsrc) (i : Z) : prog f64 :=
  match c with
  | Shared row => p_read false row i
  | Own v => match zindex v i with Some x => PRet x | None => PPanic end
  end.

(** optimizer.go:74-77. *)
Fixpoint p_inner (picked : Z) (ctx : vsrc) (n : nat) (i : Z) (acc : f64) : prog f64 :=
  match n with
  | O => PRet acc
  | S k => PLoad true picked i (fun a => pbind (p_src ctx i) (fun b =>
           p_inner picked ctx k (i + 1) (fadd acc (fmul a b))))
  end.

(** optimizer.go:78-85. *)
Definition p_grad (label : Z) (lr inner : f64) : prog f64 :=
  if fle inner (fopp max_exp) then PRet (fmul (f_of_Z (label - 0)) lr)
  else if fge inner max_exp then PRet (fmul (f_of_Z (label - 1)) lr)
  else PLookup inner (fun s => PRet (fmul (fsub (f_of_Z label) s) lr)).

(** optimizer.go:86-89; [tmp] belongs to the goroutine. *)
Fixpoint p_apply (picked : Z) (ctx : vsrc) (g : f64) (n : nat) (i : Z) (tmp : list f64) : prog (list f64) :=
  match n with
  | O => PRet tmp
  | S k =>
      PLoad true picked i (fun r =>
      match zindex tmp i with
      | None => PPanic
      | Some t =>
          PLoad true picked i (fun r' => pbind (p_src ctx i) (fun c =>
          PStore true picked i (fadd r' (fmul g c))
          (p_apply picked ctx g k (i + 1) (upd tmp (Z.to_nat i) (fadd t (fmul g r))))))
      end)
  end.

(** optimizer.go:73-89. *)
Definition p_ns_step (lr : f64) (dim : nat) (ctx : vsrc) (label picked : Z) (tmp : list f64) : prog (list f64) :=
  PSlice true picked (
  pbind (p_inner picked ctx dim 0 fzero) (fun inner =>
  pbind (p_grad label lr inner) (fun g => p_apply picked ctx g dim 0 tmp))).

(** optimizer.go:62-90 for n = 0 .. *)
Fixpoint p_ns_negatives (lr : f64) (dim : nat) (ctx : vsrc) (V id : Z) (n : nat) (tmp : list f64) : prog (list f64) :=
  match n with
  | O => PRet tmp
  | S k =>
      pbind (p_next_random V) (fun picked =>
      if id =? picked then p_ns_negatives lr dim ctx V id k tmp
      else pbind (p_ns_step lr dim ctx 0 picked tmp) (fun tmp' => p_ns_negatives lr dim ctx V id k tmp'))
  end.

(** optimizer.go:52-91; [dim] is len(ctx), [V] is opt.ctx.Row(). *)
Definition p_ns_optim (sampleSize : Z) (lr : f64) (dim : nat) (ctx : vsrc) (V id : Z) (tmp : list f64) : prog (list f64) :=
  if sampleSize <=? -1 then PRet tmp
  else pbind (p_ns_step lr dim ctx 1 id tmp) (fun tmp' => p_ns_negatives lr dim ctx V id (Z.to_nat sampleSize) tmp').

(** model.go:73-76, 153-157: [ctx[i] += tmp[i]]. *)
Fixpoint p_add_row (row : Z) (n : nat) (i : Z) (tmp : list f64) : prog unit :=
  match n with
  | O => PRet tt
  | S k => PLoad false row i (fun x =>
           match zindex tmp i with
           | None => PPanic
           | Some t => PStore false row i (fadd x t) (p_add_row row k (i + 1) tmp)
           end)
  end.

(** model.go:68-76. *)
Definition p_sg_body (neg : Z) (lr : f64) (dim : nat) (V : Z) (doc : list Z) (pos c : Z) (tmp : list f64) : prog (list f64) :=
  match zindex doc c, zindex doc pos with
  | Some u, Some w =>
      PSlice false u (
      pbind (p_ns_optim neg lr dim (Shared u) V w (map (fun _ => fzero) tmp)) (fun tmp' =>
      pbind (p_add_row u dim 0 tmp') (fun _ => PRet tmp')))
  | _, _ => PPanic
  end.

(** model.go:48-78; [tmp] is the scratch vector received from the channel. *)
Definition p_sg_train_one (neg : Z) (lr : f64) (dim : nat) (V window : Z) (doc : list Z) (tmp : list f64) (pos : Z) : prog unit :=
  pbind (p_next_random window) (fun del =>
  pbind (p_windowed (p_sg_body neg lr dim V doc pos) (Z.of_nat (length doc)) pos window del tmp) (fun _ => PRet tt)).

(** model.go:147-151: [agg[i] += ctx[i]]. *)
Fixpoint p_collect (row : Z) (n : nat) (i : Z) (agg : list f64) : prog (list f64) :=
  match n with
  | O => PRet agg
  | S k => match zindex agg i with
           | None => PPanic
           | Some a => PLoad false row i (fun x => p_collect row k (i + 1) (upd agg (Z.to_nat i) (fadd a x)))
           end
  end.

(** model.go:125-145 with aggregate and with update. *)
Definition p_cb_aggregate (dim : nat) (doc : list Z) (c : Z) (agg : list f64) : prog (list f64) :=
  match zindex doc c with Some u => PSlice false u (p_collect u dim 0 agg) | None => PPanic end.
(** model.go:153-157 called at 143. *)
Definition p_cb_update (dim : nat) (doc : list Z) (c : Z) (tmp : list f64) : prog (list f64) :=
  match zindex doc c with Some u => PSlice false u (pbind (p_add_row u dim 0 tmp) (fun _ => PRet tmp)) | None => PPanic end.
(** model.go:125-145, [dowith]. *)
Definition p_dowith (window : Z) (doc : list Z) (pos : Z) (fn : Z -> list f64 -> prog (list f64)) (v : list f64) : prog (list f64) :=
  pbind (p_next_random window) (fun del => p_windowed fn (Z.of_nat (length doc)) pos window del v).

(** model.go:104-123. *)
Definition p_cb_train_one (neg : Z) (lr : f64) (dim : nat) (V window : Z) (doc : list Z) (agg tmp : list f64) (pos : Z) : prog unit :=
  let zero := map (fun _ => fzero) in
  pbind (p_dowith window doc pos (p_cb_aggregate dim doc) (zero agg)) (fun agg' =>
  match zindex doc pos with
  | None => PPanic
  | Some w =>
      pbind (p_ns_optim neg lr dim (Own agg') V w (zero tmp)) (fun tmp' =>
      pbind (p_dowith window doc pos (p_cb_update dim doc) tmp') (fun _ => PRet tt))
  end).

(** word2vec.go:197-202: currentlr is read at each call of trainOne. The scratch vectors [agg] and
    [tmp] stand for those taken from the channel; their contents do not matter (C70). *)
Definition p_w2v_worker (cbow : bool) (neg : Z) (dim : nat) (V window : Z) (samples : list f64) (agg tmp : list f64) (doc : list nat) : prog unit :=
  p_visit samples (fun pos => PLr (fun lr =>
    if cbow then p_cb_train_one neg lr dim V window (map Z.of_nat doc) agg tmp pos
    else p_sg_train_one neg lr dim V window (map Z.of_nat doc) tmp pos)) 0 doc.

(** ** Execution *)

(** The shared variables: parameters, the second matrix, [next], currentlr. The fields and variables used by word2vec.go:182-227, glove.go:137-160, lexvec.go:173-254, modelutil.go:22. *)
Record smem := SMem { sm_p : matrix; sm_g : matrix; sm_next : Z; sm_lr : f64 }.
(** A matrix of the memory (word2vec.go:44, optimizer.go:31, solver.go:57). *)
Definition sm_get (m : smem) (g : bool) : matrix := if g then sm_g m else sm_p m.
(** Writing to it (word2vec.go:44, optimizer.go:31, solver.go:57). *)
Definition sm_set (m : smem) (g : bool) (x : matrix) : smem :=
  if g then SMem (sm_p m) x (sm_next m) (sm_lr m) else SMem x (sm_g m) (sm_next m) (sm_lr m).

(** All goroutines together; their results have type [R]. The goroutines started at word2vec.go:152, 173, glove.go:128, lexvec.go:138, 165. *)
Record system (R : Type) := Sys { y_mem : smem; y_threads : list (prog R) }.
Arguments Sys {R}. Arguments y_mem {R}. Arguments y_threads {R}.

(** ** The goroutines of one iteration of Train *)

(** solver.go:24-53, 55-99: which solver, and its matrix. *)
Definition is_ada (s : solver) : bool := match s with Stochastic => false | AdaGrad _ => true end.
(** [gradsq], solver.go:57. *)
Definition sol_mat (s : solver) (g : matrix) : matrix := match s with Stochastic => g | AdaGrad g' => g' end.
(** The stochastic solver (solver.go:28-30) and LexVec (lexvec.go:40-50) have no second matrix. *)
Definition no_matrix : matrix := Mat [] 0 0.

(** glove.go:125-129, 137-160: one goroutine for each slice of the items, and the memory they share. *)
Definition glv_workers (o : glv_opts) (g : glv) (slices : list (list item)) : list (prog unit) :=
  map (p_items (is_ada (gl_solver g)) (glv_Initlr o) (glv_Dim o) (Z.of_nat (dict_len (gl_dic g)))) slices.
(** glove.go:42-43, [param] and [solver]. *)
Definition glv_mem (next : Z) (lr : f64) (g : glv) : smem := SMem (gl_param g) (sol_mat (gl_solver g) no_matrix) next lr.

(** lexvec.go:135-139, 161-166, 173-197. *)
Definition lxv_workers (o : lex_opts) (l : lxv) (slices : list (list nat)) : list (prog unit) :=
  map (p_lex_worker (lex_Dim o) (lx_items l) (Z.of_nat (dict_len (c_dic (lx_corpus l)))) (lex_Window o) (lex_NegativeSampleSize o) (lx_samples l)) slices.
(** lexvec.go:44-47. *)
Definition lxv_mem (next : Z) (lr : f64) (l : lxv) : smem := SMem (lx_param l) no_matrix next lr.

(** word2vec.go:149-153, 171-174, 182-205, for negative sampling. *)
Definition w2v_workers (o : w2v_opts) (w : w2v) (scratch : list f64) (slices : list (list nat)) : list (prog unit) :=
  map (p_w2v_worker (match wv_mod w with Cbow => true | SkipGram => false end) (w2v_NegativeSampleSize o) (Z.to_nat (w2v_Dim o))
         (Z.of_nat (dict_len (c_dic (wv_corpus w)))) (w2v_Window o) (wv_samples w) scratch scratch) slices.
(** word2vec.go:44-49. *)
Definition w2v_mem (next : Z) (lr : f64) (w : w2v) : smem :=
  SMem (wv_param w) (match wv_opt w with NS ctx _ => ctx | HS _ _ _ => no_matrix end) next lr.

Section Exec.
Variable sig : f64 -> outcome f64.   (* the table lookup, Model/Sigmoid.v *)

(** One step of a goroutine; [x] is the random number, if it asks for one. A finished goroutine
    stays as it is. One access of word2vec.go:182-205, glove.go:137-160 or lexvec.go:173-197. *)
Definition pexec {R} (x : f64) (m : smem) (p : prog R) : outcome (smem * prog R) :=
  match p with
  | PRet r => Ret (m, p)
  | PPanic => Panic
  | PSlice g row k => obind (mat_slice (sm_get m g) row) (fun _ => Ret (m, k))
  | PLoad g row i k => obind (cell (sm_get m g) row i) (fun y => Ret (m, k y))
  | PStore g row i y k => obind (set_cell (sm_get m g) row i y) (fun a => Ret (sm_set m g a, k))
  | PLoadNext k => Ret (m, k (sm_next m))
  | PStoreNext z k => Ret (SMem (sm_p m) (sm_g m) z (sm_lr m), k)
  | PLr k => Ret (m, k (sm_lr m))
  | PRand k => Ret (m, k x)
  | PLookup y k => obind (sig y) (fun s => Ret (m, k s))
  end.

(** The goroutine has reached the end of word2vec.go:182-205, glove.go:137-160 or lexvec.go:173-197. *)
Definition pdone {R} (p : prog R) : bool := match p with PRet _ => true | _ => false end.

(** One step of some goroutine; [y_rate]: observe writes currentlr at any time, with any value. The goroutines of word2vec.go:152, 173, glove.go:128, lexvec.go:138, 165. *)
Inductive sys_step {R} : system R -> outcome (system R) -> Prop :=
| y_thread m ts i p x : nth_error ts i = Some p -> pdone p = false ->
    sys_step (Sys m ts) (obind (pexec x m p) (fun '(m', p') => Ret (Sys m' (upd ts i p')))).
(** word2vec.go:213, 215, lexvec.go:240, 242. *)
Inductive env_step {R} : system R -> system R -> Prop :=
| y_rate m ts lr : env_step (Sys m ts) (Sys (SMem (sm_p m) (sm_g m) (sm_next m) lr) ts).

(** [sys_runs n s s']: an execution with [n] steps of the goroutines. Interleavings of word2vec.go:182-205, glove.go:137-160, lexvec.go:173-197. *)
Inductive sys_runs {R} : nat -> system R -> system R -> Prop :=
| y_start s : sys_runs 0 s s
| y_step n s s' s'' : sys_runs n s s' -> sys_step s' (Ret s'') -> sys_runs (S n) s s''
| y_env n s s' s'' : sys_runs n s s' -> env_step s' s'' -> sys_runs n s s''.

(** A goroutine running alone to its end; [k] counts the random numbers. word2vec.go:182-205, glove.go:137-160, lexvec.go:173-197 with Goroutines = 1. *)
Fixpoint prun {R} (rand : nat -> f64) (p : prog R) (k : nat) (m : smem) : outcome (nat * smem * R) :=
  match p with
  | PRet r => Ret (k, m, r)
  | PPanic => Panic
  | PSlice g row p' => obind (mat_slice (sm_get m g) row) (fun _ => prun rand p' k m)
  | PLoad g row i p' => obind (cell (sm_get m g) row i) (fun y => prun rand (p' y) k m)
  | PStore g row i y p' => obind (set_cell (sm_get m g) row i y) (fun a => prun rand p' k (sm_set m g a))
  | PLoadNext p' => prun rand (p' (sm_next m)) k m
  | PStoreNext z p' => prun rand p' k (SMem (sm_p m) (sm_g m) z (sm_lr m))
  | PLr p' => prun rand (p' (sm_lr m)) k m
  | PRand p' => prun rand (p' (rand k)) (S k) m
  | PLookup y p' => obind (sig y) (fun s => prun rand (p' s) k m)
  end.
End Exec.
