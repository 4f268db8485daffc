(** * Model of whole training runs: the goroutines of Model/Sched.v together with the values

    word2vec.go:135-227, glove.go:110-175, lexvec.go:116-197 and 234-254.
    A configuration is a scheduler state and the values shared by all goroutines.

    Simplifications, besides those of Sched.v: one whole trainOne call is one atomic step on the
    values (data races inside trainOne are not modelled; with one goroutine there are none among
    workers); Trial and, in LexVec, the trainOne call that follows it are one step; the body of
    observe's loop is one step. *)
From Verif.Lib Require Import Go F64.
From Verif.Spec Require Import Slices.
From Verif.Model Require Import Dictionary Reader Corpus ModelUtil Matrix Subsample Sigmoid Word2vec Glove Lexvec
  LearningRate Options Train Sched.

Section Values.
Context {A X : Type}.

(** What the goroutines do with the shared values of type [X].
    [e_trial x]: subsampler.Trial for [x]; true means: train.
    [e_work doc pos]: a possible outcome of trainOne(doc, pos, ..); a relation because the scratch
    vector comes from the channel with whatever earlier calls left in it.
    [e_tick n]: the body of observe's loop for the n-th tick. word2vec.go:197-202, 209-223. *)
Record effects := Effects {
  e_trial : A -> X -> outcome (X * bool);
  e_work : list A -> nat -> X -> outcome X -> Prop;
  e_tick : nat -> X -> outcome X }.

Variables (c : cfg) (E : effects).

(** Steps of the scheduler that do not touch the values. Statements of word2vec.go:135-205 other than :198-199 and :210-222. *)
Definition quiet (s s' : st A) : Prop :=
  log s' = log s /\ pool s <= pool s' /\ forall n, obs s = OBusy n -> obs s' = OBusy n.

(** [vstep s v r]: one step from scheduler state [s] and values [v]; [r] is the new configuration,
    or a panic (which ends the program). The scheduler states are those of [Sched.step]. word2vec.go:135-227. *)
Inductive vstep : st A -> X -> outcome (st A * X) -> Prop :=
| v_quiet s s' v : step c s s' -> quiet s s' -> vstep s v (Ret (s', v))
(** word2vec.go:198, lexvec.go:190: Trial, with its result false, true, or a panic *)
| v_skip s i d x t v v' : crashed s = false -> nth_error (wks s) i = Some (Worker d (WRun (x :: t))) -> c_skip c = true ->
    e_trial E x v = Ret (v', false) ->
    vstep s v (Ret (St (src s) (main s) (set_w s i (WSend t)) (obs s) (sem s) (pool s) (wg s) (tclosed s) false (log s ++ [(i, x)]), v'))
| v_take s i d x t v v' : crashed s = false -> nth_error (wks s) i = Some (Worker d (WRun (x :: t))) -> c_pool c = true -> 0 < pool s ->
    e_trial E x v = Ret (v', true) ->
    vstep s v (Ret (St (src s) (main s) (set_w s i (WHold x t)) (obs s) (sem s) (pred (pool s)) (wg s) (tclosed s) false (log s), v'))
| v_trial_fails s i d x t v r : crashed s = false -> nth_error (wks s) i = Some (Worker d (WRun (x :: t))) ->
    e_trial E x v = r -> (forall p, r <> Ret p) -> vstep s v (obind r (fun _ => Panic))
(** word2vec.go:199: trainOne, holding a scratch vector *)
| v_give s i d x t v r : crashed s = false -> nth_error (wks s) i = Some (Worker d (WHold x t)) -> pool s < c_g c ->
    e_work E d (length d - S (length t)) v r ->
    vstep s v (obind r (fun v' => Ret
      (St (src s) (main s) (set_w s i (WSend t)) (obs s) (sem s) (S (pool s)) (wg s) (tclosed s) false (log s ++ [(i, x)]), v')))
(** lexvec.go:190-191, glove.go:154-155 *)
| v_train s i d x t v v1 r : crashed s = false -> nth_error (wks s) i = Some (Worker d (WRun (x :: t))) -> c_pool c = false ->
    e_trial E x v = Ret (v1, true) -> e_work E d (length d - S (length t)) v1 r ->
    vstep s v (obind r (fun v' => Ret
      (St (src s) (main s) (set_w s i (WSend t)) (obs s) (sem s) (pool s) (wg s) (tclosed s) false (log s ++ [(i, x)]), v')))
(** word2vec.go:210-222 *)
| v_tick s n v r : crashed s = false -> obs s = OBusy n -> e_tick E n v = r ->
    vstep s v (obind r (fun v' => Ret
      (St (src s) (main s) (wks s) (ORecv n) (sem s) (pool s) (wg s) (tclosed s) false (log s), v'))).

(** The iteration loop, as [Sched.run_step]. word2vec.go:142-157, 162-178. *)
Inductive vrun_step (iter : nat) (mk : nat -> source A) : list (st A) -> X -> outcome (list (st A) * X) -> Prop :=
| vr_inner l1 s l2 v r : vstep s v r ->
    vrun_step iter mk (l1 ++ s :: l2) v (obind r (fun '(s', v') => Ret (l1 ++ s' :: l2, v')))
| vr_next l s v : main s = MDone -> length (l ++ [s]) < iter ->
    vrun_step iter mk (l ++ [s]) v (Ret (l ++ [s] ++ [init c (mk (length (l ++ [s])))], v)).

(** Executions of [n] steps without failure. word2vec.go:135-180. *)
Inductive vruns (iter : nat) (mk : nat -> source A) : nat -> list (st A) -> X -> list (st A) -> X -> Prop :=
| vruns_0 l v : vruns iter mk 0 l v l v
| vruns_S n l0 v0 l v l' v' : vruns iter mk n l0 v0 l v -> vrun_step iter mk l v (Ret (l', v')) ->
    vruns iter mk (S n) l0 v0 l' v'.

(** [reaches iter mk v0 l v]: some execution of the loop from values [v0] reaches [l], [v]. With
    Iter < 1 the loop has no iteration. word2vec.go:135-180. *)
Definition reaches (iter : nat) (mk : nat -> source A) (v0 : X) (l : list (st A)) (v : X) : Prop :=
  if iter =? 0 then l = [] /\ v = v0 else exists n, vruns iter mk n [init c (mk 0)] v0 l v.

(** train/batchTrain has returned: the main goroutine has left the last iteration. word2vec.go:158, 179. *)
Definition returned (iter : nat) (l : list (st A)) : Prop :=
  length l = iter /\ (iter = 0 \/ exists l0 s, l = l0 ++ [s] /\ main s = MDone).

(** train/batchTrain, started with the values [v0], has returned and the values are [v]. word2vec.go:125-132. *)
Definition trains (iter : nat) (mk : nat -> source A) (v0 v : X) : Prop :=
  exists l, reaches iter mk v0 l v /\ returned iter l.

(** Some goroutine can panic. In word2vec.go:135-227. *)
Definition can_panic (iter : nat) (mk : nat -> source A) (l : list (st A)) (v : X) : Prop :=
  vrun_step iter mk l v Panic.
End Values.
Arguments effects : clear implicits.

Local Open Scope Z_scope.

(** The document of word2vec/lexvec: word2vec.go:136-153 or 169-171, lexvec.go:122-139 or 161-163.
    BatchWords reads the same file in every iteration (C15: from any position). *)
Definition doc_source (lower : gostring -> gostring) (in_memory : bool) (goroutines batch_size : Z) (c : corpus) : outcome (source nat) :=
  if in_memory then
    obind (mem_indexed_doc c) (fun doc =>
    obind (index_per_thread goroutines (Z.of_nat (length doc))) (fun bounds =>
    Ret (Mem (slices doc bounds))))
  else match fs_batch_words lower c (c_doc c) batch_size with
       | (_, _, Panic) => Panic
       | (sent, closes, _) => Ret (batch_source sent closes)
       end.

(** ** word2vec: the package variable [next], the parameters, the optimizer, currentlr, and the number
    of rand.Float64() calls so far. *)
(** modelutil.go:22, word2vec.go:44-49. *)
Record wvals := WVals { wv_next : Z; wv_m : matrix; wv_o : optimizer; wv_lr : f64; wv_k : nat }.

(** subsample.go:45-52 with the next random number. *)
Definition w2v_trial (rand : nat -> f64) (samples : list f64) (id : nat) (v : wvals) : outcome (wvals * bool) :=
  obind (trial samples id (rand (wv_k v))) (fun b =>
  Ret (WVals (wv_next v) (wv_m v) (wv_o v) (wv_lr v) (S (wv_k v)), b)).

(** model.go:48-78 and 104-123 with scratch vectors [agg] and [tmp]; sigmoid table lookups are [sig]. *)
Definition w2v_work (sig : f64 -> outcome f64) (md : mod_kind) (window dim : Z) (doc : list nat) (pos : nat) (v : wvals)
  (r : outcome wvals) : Prop :=
  exists agg tmp, Z.of_nat (length agg) = dim /\ Z.of_nat (length tmp) = dim /\
    r = obind ((match md with SkipGram => sg_train_one | Cbow => cb_train_one end) sig window (map Z.of_nat doc) (Z.of_nat pos) (wv_lr v)
                 (WState (wv_next v) (wv_m v) (wv_o v) agg tmp))
              (fun s => Ret (WVals (s_next s) (s_param s) (s_opt s) (wv_lr v) (wv_k v))).

(** word2vec.go:211-219, the options that observe reads. *)
Definition w2v_lr_opts (o : w2v_opts) (len : nat) : lr_opts :=
  LrOpts (w2v_Initlr o) (w2v_MinLR o) (w2v_UpdateLRBatch o) (Z.of_nat len) (w2v_Verbose o) (w2v_LogBatch o).

(** word2vec.go:210-222. *)
Definition w2v_tick (o : w2v_opts) (len n : nat) (v : wvals) : outcome wvals :=
  obind (lr_tick (w2v_lr_opts o len) (Z.of_nat n) (wv_lr v)) (fun lr =>
  Ret (WVals (wv_next v) (wv_m v) (wv_o v) lr (wv_k v))).

(** word2vec.go:197-202, 209-223. *)
Definition w2v_effects (sig : f64 -> outcome f64) (rand : nat -> f64) (o : w2v_opts) (w : w2v) : effects nat wvals :=
  Effects (w2v_trial rand (wv_samples w)) (w2v_work sig (wv_mod w) (w2v_Window o) (w2v_Dim o)) (w2v_tick o (c_len (wv_corpus w))).

(** The values before training; [next] is whatever earlier uses in the process left. The number of
    random numbers drawn so far: one per component of the matrices. word2vec.go:124. *)
Definition w2v_start (next : Z) (lr : f64) (w : w2v) : wvals :=
  WVals next (wv_param w) (wv_opt w) lr
        (length (m_array (wv_param w)) + match wv_opt w with NS ctx _ => length (m_array ctx) | HS _ _ _ => 0 end)%nat.

(** word2vec.go:146, model.go:37-46, 90-102. *)
Definition w2v_cfg (o : w2v_opts) : cfg := Cfg (Z.to_nat (w2v_Goroutines o)) true true.
(** word2vec.go:136-153, 169-174. *)
Definition w2v_source (lower : gostring -> gostring) (o : w2v_opts) (w : w2v) : outcome (source nat) :=
  doc_source lower (w2v_DocInMemory o) (w2v_Goroutines o) (w2v_BatchSize o) (wv_corpus w).

(** word2vec.go:74-133: a call of Train that returns nil, for the word2vec value with currentlr [lr]
    (Initlr in a fresh one), and the resulting one. *)
Definition w2v_trained (exp : f64 -> f64) (lower : gostring -> gostring) (rand : nat -> f64) (next : Z) (lr : f64)
  (o : w2v_opts) (doc : reader) (w : w2v) : Prop :=
  exists w0 x v, w2v_setup lower rand o doc = Ret w0 /\ w2v_source lower o w0 = Ret x /\
    trains (w2v_cfg o) (w2v_effects (sigmoid (sig_table exp)) rand o w0) (Z.to_nat (w2v_Iter o)) (fun _ => x)
           (w2v_start next lr w0) v /\
    w = W2v (wv_corpus w0) (wv_m v) (wv_samples w0) (wv_mod w0) (wv_o v).

(** ** GloVe: parameters and solver *)
(** glove.go:152-157, 164-171. *)
Definition glv_effects (o : glv_opts) (V : Z) : effects item (matrix * solver) :=
  Effects (fun _ v => Ret (v, true))
          (fun items pos v r => match nth_error items pos with
                                | Some it => r = glove_train_item (glv_Initlr o) V it v
                                | None => r = Panic
                                end)
          (* glove.go:162-175: only the division by LogBatch can have an effect *)
          (fun _ v => if glv_Verbose o && (glv_LogBatch o =? 0) then Panic else Ret v).

(** glove.go:122: no scratch vectors, no subsampling. *)
Definition glv_cfg (o : glv_opts) : cfg := Cfg (Z.to_nat (glv_Goroutines o)) false false.
(** glove.go:111-129. *)
Definition glv_source (o : glv_opts) (g : glv) : outcome (source item) :=
  obind (index_per_thread (glv_Goroutines o) (Z.of_nat (length (gl_items g)))) (fun bounds =>
  Ret (Mem (slices (gl_items g) bounds))).

(** glove.go:68-135. *)
Definition glv_trained (lower : gostring -> gostring) (rand : nat -> f64) (flog : f64 -> f64) (fpow : f64 -> f64 -> f64)
  (order : list (Z * f64) -> list (Z * f64)) (o : glv_opts) (doc : reader) (g : glv) : Prop :=
  exists g0 x m sol, glv_setup lower rand flog fpow order o doc = Ret g0 /\ glv_source o g0 = Ret x /\
    trains (glv_cfg o) (glv_effects o (Z.of_nat (dict_len (gl_dic g0)))) (Z.to_nat (glv_Iter o)) (fun _ => x)
           (gl_param g0, gl_solver g0) (m, sol) /\
    g = Glv (gl_dic g0) m sol (gl_items g0).

(** ** LexVec: [next], parameters, currentlr, number of rand.Float64() calls *)
(** modelutil.go:22, lexvec.go:44-47. *)
Record lvals := LVals { lv_next : Z; lv_m : matrix; lv_lr : f64; lv_k : nat }.

(** subsample.go:45-52 with the next random number. *)
Definition lxv_trial (rand : nat -> f64) (samples : list f64) (id : nat) (v : lvals) : outcome (lvals * bool) :=
  obind (trial samples id (rand (lv_k v))) (fun b =>
  Ret (LVals (lv_next v) (lv_m v) (lv_lr v) (S (lv_k v)), b)).

(** lexvec.go:199-218. *)
Definition lxv_work (o : lex_opts) (items : list (Z * f64)) (V : Z) (doc : list nat) (pos : nat) (v : lvals) (r : outcome lvals) : Prop :=
  r = obind (lex_train_one (lex_Dim o) (lv_lr v) items V (lex_Window o) (lex_NegativeSampleSize o) (map Z.of_nat doc) (Z.of_nat pos)
               (lv_next v, lv_m v))
            (fun '(next', m') => Ret (LVals next' m' (lv_lr v) (lv_k v))).

(** lexvec.go:238-246, the options that observe reads. *)
Definition lxv_lr_opts (o : lex_opts) (len : nat) : lr_opts :=
  LrOpts (lex_Initlr o) (lex_MinLR o) (lex_UpdateLRBatch o) (Z.of_nat len) (lex_Verbose o) (lex_LogBatch o).

(** lexvec.go:237-249. *)
Definition lxv_tick (o : lex_opts) (len n : nat) (v : lvals) : outcome lvals :=
  obind (lr_tick (lxv_lr_opts o len) (Z.of_nat n) (lv_lr v)) (fun lr =>
  Ret (LVals (lv_next v) (lv_m v) lr (lv_k v))).

(** lexvec.go:189-194, 236-250. *)
Definition lxv_effects (rand : nat -> f64) (o : lex_opts) (l : lxv) : effects nat lvals :=
  Effects (lxv_trial rand (lx_samples l))
          (lxv_work o (lx_items l) (Z.of_nat (dict_len (c_dic (lx_corpus l)))))
          (lxv_tick o (c_len (lx_corpus l))).

(** The values before lexvec.go:104. *)
Definition lxv_start (next : Z) (lr : f64) (l : lxv) : lvals :=
  LVals next (lx_param l) lr (length (m_array (lx_param l))).

(** lexvec.go:132, 157: no scratch vectors, subsampling. *)
Definition lxv_cfg (o : lex_opts) : cfg := Cfg (Z.to_nat (lex_Goroutines o)) false true.
(** lexvec.go:122-139, 161-166. *)
Definition lxv_source (lower : gostring -> gostring) (o : lex_opts) (l : lxv) : outcome (source nat) :=
  doc_source lower (lex_DocInMemory o) (lex_Goroutines o) (lex_BatchSize o) (lx_corpus l).

(** lexvec.go:73-171. *)
Definition lxv_trained (lower : gostring -> gostring) (rand : nat -> f64) (flog : f64 -> f64) (fpow : f64 -> f64 -> f64)
  (order : list (Z * f64) -> list (Z * f64)) (next : Z) (lr : f64) (o : lex_opts) (doc : reader) (l : lxv) : Prop :=
  exists l0 x v, lxv_setup lower rand flog fpow order o doc = Ret l0 /\ lxv_source lower o l0 = Ret x /\
    trains (lxv_cfg o) (lxv_effects rand o l0) (Z.to_nat (lex_Iter o)) (fun _ => x) (lxv_start next lr l0) v /\
    l = Lxv (lx_corpus l0) (lv_m v) (lx_samples l0) (lx_items l0).
