(** * Model of pkg/model/word2vec/optimizer.go and pkg/model/word2vec/model.go

    The table lookup [sigtable.sigmoid] is the parameter [sig]; Model/Sigmoid.v models the
    table itself. Calls are sequential here (one goroutine); panics end the program, so the
    partial effects before a panic are not kept. *)
From Verif.Lib Require Import Go F64.
From Verif.Model Require Import ModelUtil Matrix Huffman Window Sigmoid.
Local Open Scope Z_scope.

(** Loops [for i := range src { dst[i] = g(dst[i], src[i]) }]. optimizer.go:86-89, 124-127. *)
Fixpoint vacc (g : f64 -> f64 -> f64) (dst src : list f64) : outcome (list f64) :=
  match src, dst with
  | [], _ => Ret dst
  | s :: src', d :: dst' => obind (vacc g dst' src') (fun l => Ret (g d s :: l))
  | _ :: _, [] => Panic
  end.

(** Loops [for i := range y { acc += x[i]*y[i] }]. optimizer.go:75-77, 117-119. *)
Fixpoint vdot (acc : f64) (x y : list f64) : outcome f64 :=
  match y, x with
  | [], _ => Ret acc
  | b :: y', a :: x' => vdot (fadd acc (fmul a b)) x' y'
  | _ :: _, [] => Panic
  end.

(** [for i := range v { v[i] = 0 }]. model.go:68-70, 113-116. *)
Definition vzero (v : list f64) : list f64 := map (fun _ => fzero) v.

(** [for i := 0; i < len(dst); i++ { dst[i] += src[i] }]. model.go:74-76, 148-150, 154-156. *)
Definition vadd_into (dst src : list f64) : outcome (list f64) :=
  if (length src <? length dst)%nat then Panic
  else vacc fadd dst (firstn (length dst) src).

Section WithSigmoid.
Variable sig : f64 -> outcome f64.

(** optimizer.go:78-85: the gradient factor. *)
Definition ns_grad (label : Z) (lr inner : f64) : outcome f64 :=
  if fle inner (fopp max_exp) then Ret (fmul (f_of_Z (label - 0)) lr)
  else if fge inner max_exp then Ret (fmul (f_of_Z (label - 1)) lr)
  else obind (sig inner) (fun s => Ret (fmul (fsub (f_of_Z label) s) lr)).

(** optimizer.go:73-89: one sample. [rnd] is a row of the optimizer's own matrix; it aliases
    neither [ctx] nor [tmp]. *)
Definition ns_step (lr : f64) (ctx : list f64) (label picked : Z) (m : matrix) (tmp : list f64)
  : outcome (matrix * list f64) :=
  obind (mat_slice m picked) (fun rnd =>
  obind (vdot fzero rnd ctx) (fun inner =>
  obind (ns_grad label lr inner) (fun g =>
  obind (vacc (fun t r => fadd t (fmul g r)) tmp (firstn (length ctx) rnd)) (fun tmp' =>
  obind (vacc (fun r c => fadd r (fmul g c)) rnd ctx) (fun rnd' =>
  Ret (mat_store m picked rnd', tmp')))))).

(** optimizer.go:62-90 for n = 0 .. : the negative samples. *)
Fixpoint ns_negatives (lr : f64) (ctx : list f64) (id : Z) (n : nat) (next : Z) (m : matrix)
  (tmp : list f64) : outcome (Z * matrix * list f64) :=
  match n with
  | O => Ret (next, m, tmp)
  | S k =>
      let '(next', o) := next_random next (m_row m) in
      obind o (fun picked =>
      if id =? picked then ns_negatives lr ctx id k next' m tmp
      else obind (ns_step lr ctx 0 picked m tmp) (fun '(m', tmp') =>
           ns_negatives lr ctx id k next' m' tmp'))
  end.

(** optimizer.go:52-91, [negativeSampling.optim]; the loop starts at n = -1 (the positive sample). *)
Definition ns_optim (sampleSize : Z) (lr : f64) (ctx : list f64) (id next : Z) (m : matrix)
  (tmp : list f64) : outcome (Z * matrix * list f64) :=
  if sampleSize <=? -1 then Ret (next, m, tmp)
  else obind (ns_step lr ctx 1 id m tmp) (fun '(m', tmp') =>
       ns_negatives lr ctx id (Z.to_nat sampleSize) next m' tmp').

(** [p.Vector = v]. Used for optimizer.go:126. *)
Definition set_vec (h : heap) (p : nat) (v : list f64) : heap :=
  let n := hget h p in upd h p (HNode (hn_cache n) (hn_parent n) (hn_val n) (hn_code n) v).

(** optimizer.go:113-128: the loop over consecutive nodes of the path. *)
Fixpoint hs_loop (lr : f64) (ctx : list f64) (path : list nat) (h : heap) (tmp : list f64)
  : outcome (heap * list f64) :=
  match path with
  | p :: ((q :: _) as rest) =>
      let childCode := hn_code (hget h q) in
      let vec := hn_vec (hget h p) in
      obind (vdot fzero ctx vec) (fun inner =>
      if fle inner (fopp max_exp) || fge inner max_exp then Ret (h, tmp)
      else
        obind (sig inner) (fun s =>
        let g := fmul (fsub (fsub (f_of_Z 1) (f_of_Z (Z.of_nat childCode))) s) lr in
        obind (vacc (fun t v => fadd t (fmul g v)) tmp vec) (fun tmp' =>
        obind (vacc (fun v c => fadd v (fmul g c)) vec (firstn (length vec) ctx)) (fun vec' =>
        hs_loop lr ctx rest (set_vec h p vec') tmp'))))
  | _ => Ret (h, tmp)
  end.

(** optimizer.go:107-129, [hierarchicalSoftmax.optim]. *)
Definition hs_optim (maxDepth : Z) (lr : f64) (ctx : list f64) (id : Z) (h : heap) (set : list nat)
  (tmp : list f64) : outcome (heap * list f64) :=
  match zindex set id with
  | None => Panic
  | Some n => let '(h', o) := get_path h n maxDepth in
              obind o (fun path => hs_loop lr ctx path h' tmp)
  end.

(** optimizer.go:26-34 and 93-97: the two optimizers with their state. *)
Inductive optimizer :=
| NS (ctx : matrix) (sampleSize : Z)
| HS (h : heap) (nodeset : list nat) (maxDepth : Z).

(** The interface call [optimizer.optim(id, lr, ctx, tmp)]: the new values of the package
    variable [next], of the optimizer and of [tmp]. optimizer.go:26-28. *)
Definition optim (opt : optimizer) (lr : f64) (ctx : list f64) (id next : Z) (tmp : list f64)
  : outcome (Z * optimizer * list f64) :=
  match opt with
  | NS m k => obind (ns_optim k lr ctx id next m tmp) (fun '(next', m', tmp') => Ret (next', NS m' k, tmp'))
  | HS h set d => obind (hs_optim d lr ctx id h set tmp) (fun '(h', tmp') => Ret (next, HS h' set d, tmp'))
  end.

(** What a trainOne call reads and writes: [next], the parameters, the optimizer, and the two
    scratch vectors taken from the channel ([s_agg] is used by CBOW only). model.go:48-78, 104-123. *)
Record wstate := WState { s_next : Z; s_param : matrix; s_opt : optimizer; s_agg : list f64; s_tmp : list f64 }.

(** model.go:68-76: the loop body of skipGram.trainOne. *)
Definition sg_body (doc : list Z) (pos : Z) (lr : f64) (c : Z) (st : wstate) : outcome wstate :=
  let tmp := vzero (s_tmp st) in
  match zindex doc c, zindex doc pos with
  | Some ctxID, Some target =>
      obind (mat_slice (s_param st) ctxID) (fun ctx =>
      obind (optim (s_opt st) lr ctx target (s_next st) tmp) (fun '(next', opt', tmp') =>
      obind (vadd_into ctx tmp') (fun ctx' =>
      Ret (WState next' (mat_store (s_param st) ctxID ctx') opt' (s_agg st) tmp'))))
  | _, _ => Panic
  end.

(** model.go:48-78, [skipGram.trainOne]. *)
Definition sg_train_one (window : Z) (doc : list Z) (pos : Z) (lr : f64) (st : wstate) : outcome wstate :=
  let '(next', o) := next_random (s_next st) window in
  obind o (fun del =>
  windowed (sg_body doc pos lr) (Z.of_nat (length doc)) pos window del
           (WState next' (s_param st) (s_opt st) (s_agg st) (s_tmp st))).

(** model.go:141-143 with model.go:147-151, [aggregate]: [agg[i] += ctx[i]]. *)
Definition cb_aggregate (doc : list Z) (c : Z) (st : wstate) : outcome wstate :=
  match zindex doc c with
  | None => Panic
  | Some ctxID =>
      obind (mat_slice (s_param st) ctxID) (fun ctx =>
      obind (vacc fadd (s_agg st) ctx) (fun agg' =>
      Ret (WState (s_next st) (s_param st) (s_opt st) agg' (s_tmp st))))
  end.

(** model.go:141-143 with model.go:153-157, [update]: [ctx[i] += tmp[i]] for i < len(ctx). *)
Definition cb_update (doc : list Z) (c : Z) (st : wstate) : outcome wstate :=
  match zindex doc c with
  | None => Panic
  | Some ctxID =>
      obind (mat_slice (s_param st) ctxID) (fun ctx =>
      obind (vadd_into ctx (s_tmp st)) (fun ctx' =>
      Ret (WState (s_next st) (mat_store (s_param st) ctxID ctx') (s_opt st) (s_agg st) (s_tmp st))))
  end.

(** model.go:125-145, [dowith]: draws its own shrink. *)
Definition cb_dowith (window : Z) (doc : list Z) (pos : Z) (fn : Z -> wstate -> outcome wstate)
  (st : wstate) : outcome wstate :=
  let '(next', o) := next_random (s_next st) window in
  obind o (fun del =>
  windowed fn (Z.of_nat (length doc)) pos window del
           (WState next' (s_param st) (s_opt st) (s_agg st) (s_tmp st))).

(** model.go:104-123, [cbow.trainOne]. *)
Definition cb_train_one (window : Z) (doc : list Z) (pos : Z) (lr : f64) (st : wstate) : outcome wstate :=
  let st0 := WState (s_next st) (s_param st) (s_opt st) (vzero (s_agg st)) (vzero (s_tmp st)) in
  obind (cb_dowith window doc pos (cb_aggregate doc) st0) (fun st1 =>
  match zindex doc pos with
  | None => Panic
  | Some target =>
      obind (optim (s_opt st1) lr (s_agg st1) target (s_next st1) (s_tmp st1)) (fun '(next', opt', tmp') =>
      cb_dowith window doc pos (cb_update doc)
        (WState next' (s_param st1) opt' (s_agg st1) tmp'))
  end).
End WithSigmoid.
