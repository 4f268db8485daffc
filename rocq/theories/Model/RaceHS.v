(** * word2vec with hierarchical softmax, statement by statement on shared memory

    As Model/Race.v, for the optimizer of pkg/model/word2vec/optimizer.go:93-130: besides the
    parameters and the generator of NextRandom the goroutines share the Huffman nodes, whose vectors they
    update and whose paths GetPath (pkg/corpus/dictionary/node/node.go) builds on first use.

    Every access to a shared number is a step of its own. In GetPath every statement is a step, as in
    Model/GetPathRace.v (whose slices with capacities are used here): in particular a slice header is
    read and written at once and append is one step. Memory is sequentially consistent. The nodes'
    Parent, Code and the lengths of their vectors do not change during training. *)
From Verif.Lib Require Import Go F64.
From Verif.Model Require Import ModelUtil Matrix Cells Huffman Subsample Sigmoid Dictionary Corpus Word2vec Options Train.
From Verif.Model Require GetPathRace.
Local Open Scope Z_scope.
Notation hdr := GetPathRace.hdr.
Notation Hdr := GetPathRace.Hdr.
Notation s_arr := GetPathRace.s_arr.
Notation s_len := GetPathRace.s_len.
Notation s_cap := GetPathRace.s_cap.

(** The shared variables: parameters, for every node its vector and its cache, the arrays behind the caches
    (nil pointers are [None]), [next], currentlr. word2vec.go:44-49, node.go:17-24, modelutil.go:22. *)
Record hmem := HMem { hm_p : matrix; hm_vecs : list (list f64); hm_cache : list (option hdr);
                      hm_arrays : list (list (option nat)); hm_next : Z; hm_lr : f64 }.

(** A goroutine's remaining program: each [HAct] is one access; [rnd] tells whether it draws a random
    number (its first argument). word2vec.go:182-205. *)
Inductive hprog (R : Type) : Type :=
| HRet (r : R)
| HPanic
| HAct (A : Type) (rnd : bool) (f : f64 -> hmem -> outcome (hmem * A)) (k : A -> hprog R).
Arguments HRet {R} r.
Arguments HPanic {R}.
Arguments HAct {R A} rnd f k.

(** Sequencing of statements in word2vec.go:182-205. *)
Fixpoint hbind {R S} (p : hprog R) (f : R -> hprog S) : hprog S :=
  match p with
  | HRet r => f r
  | HPanic => HPanic
  | HAct rnd a k => HAct rnd a (fun x => hbind (k x) f)
  end.

(** ** The accesses *)
(** A read that cannot fail, e.g. currentlr at word2vec.go:199. *)
Definition get {A} (f : hmem -> A) (_ : f64) (m : hmem) : outcome (hmem * A) := Ret (m, f m).
(** A read that may be out of bounds, e.g. optimizer.go:118. *)
Definition get_or_panic {A} (f : hmem -> outcome A) (_ : f64) (m : hmem) : outcome (hmem * A) := obind (f m) (fun a => Ret (m, a)).
(** The param.Slice(id) call of model.go:72, 142; only its bounds check. *)
Definition a_slice (row : Z) : f64 -> hmem -> outcome (hmem * list f64) := get_or_panic (fun m => mat_slice (hm_p m) row).
(** Reading a component of the parameters: model.go:75, 149, 155, optimizer.go:118, 126. *)
Definition a_param (row i : Z) : f64 -> hmem -> outcome (hmem * f64) := get_or_panic (fun m => cell (hm_p m) row i).
(** Writing it: model.go:75, 155. *)
Definition a_set_param (row i : Z) (x : f64) (_ : f64) (m : hmem) : outcome (hmem * unit) :=
  obind (set_cell (hm_p m) row i x) (fun p => Ret (HMem p (hm_vecs m) (hm_cache m) (hm_arrays m) (hm_next m) (hm_lr m), tt)).
(** [len(p.Vector)], optimizer.go:117, 124. *)
Definition a_veclen (n : nat) : f64 -> hmem -> outcome (hmem * nat) := get (fun m => length (nth n (hm_vecs m) [])).
(** [p.Vector[j]], optimizer.go:118, 125, 126. *)
Definition a_vec (n : nat) (j : Z) : f64 -> hmem -> outcome (hmem * f64) :=
  get_or_panic (fun m => match zindex (nth n (hm_vecs m) []) j with Some x => Ret x | None => Panic end).
(** [p.Vector[j] = x], optimizer.go:126. *)
Definition a_set_vec (n : nat) (j : Z) (x : f64) (_ : f64) (m : hmem) : outcome (hmem * unit) :=
  match zindex (nth n (hm_vecs m) []) j with
  | Some _ => Ret (HMem (hm_p m) (upd (hm_vecs m) n (upd (nth n (hm_vecs m) []) (Z.to_nat j) x)) (hm_cache m) (hm_arrays m) (hm_next m) (hm_lr m), tt)
  | None => Panic
  end.
(** modelutil.go:27. *)
Definition a_set_next (z : Z) (_ : f64) (m : hmem) : outcome (hmem * unit) :=
  Ret (HMem (hm_p m) (hm_vecs m) (hm_cache m) (hm_arrays m) z (hm_lr m), tt).
(** subsample.go:50: rand.Float64(). *)
Definition a_rand (x : f64) (m : hmem) : outcome (hmem * f64) := Ret (m, x).

(** node.go:27: [n.cache == nil]. *)
Definition a_is_nil (n : nat) : f64 -> hmem -> outcome (hmem * bool) := get (fun m => match nth n (hm_cache m) None with None => true | Some _ => false end).
(** The new value of n.cache. node.go:33, 35. *)
Definition put_cache (m : hmem) (n : nat) (h : hdr) (arrays : list (list (option nat))) : hmem :=
  HMem (hm_p m) (hm_vecs m) (upd (hm_cache m) n (Some h)) arrays (hm_next m) (hm_lr m).
(** node.go:33: [n.cache = make([]*Node, 0)]. *)
Definition a_make (n : nat) (_ : f64) (m : hmem) : outcome (hmem * unit) :=
  Ret (put_cache m n (Hdr (length (hm_arrays m)) 0 0) (hm_arrays m ++ [[]]), tt).
(** n.cache, as a header; a nil slice has length and capacity 0. node.go:35, 37, 39-42. *)
Definition header (m : hmem) (n : nat) : hdr := match nth n (hm_cache m) None with Some h => h | None => Hdr 0 0 0 end.
(** node.go:35: [n.cache = append(n.cache, p)] (see [GetPathRace.go_append]). *)
Definition a_append (n p : nat) (_ : f64) (m : hmem) : outcome (hmem * unit) :=
  let h := header m n in let arr := nth (s_arr h) (hm_arrays m) [] in
  if (s_len h <? s_cap h)%nat then
    Ret (put_cache m n (Hdr (s_arr h) (S (s_len h)) (s_cap h)) (upd (hm_arrays m) (s_arr h) (upd arr (s_len h) (Some p))), tt)
  else
    let cap' := if (s_cap h =? 0)%nat then 1%nat else (2 * s_cap h)%nat in
    Ret (put_cache m n (Hdr (length (hm_arrays m)) (S (s_len h)) cap')
           (hm_arrays m ++ [firstn (s_len h) arr ++ Some p :: repeat None (cap' - S (s_len h))]), tt).
(** node.go:37: the argument of re. *)
Definition a_header (n : nat) : f64 -> hmem -> outcome (hmem * hdr) := get (fun m => header m n).
(** node.go:30: [nodes[i], nodes[j] = nodes[j], nodes[i]]. *)
Definition a_swap (h : hdr) (i j : nat) (_ : f64) (m : hmem) : outcome (hmem * unit) :=
  let a := nth (s_arr h) (hm_arrays m) [] in
  Ret (HMem (hm_p m) (hm_vecs m) (hm_cache m) (upd (hm_arrays m) (s_arr h) (upd (upd a i (nth j a None)) j (nth i a None))) (hm_next m) (hm_lr m), tt).
(** [len(n.cache)], node.go:39, 40. *)
Definition a_len (n : nat) : f64 -> hmem -> outcome (hmem * Z) := get (fun m => Z.of_nat (s_len (header m n))).
(** node.go:42: [n.cache[:depth]], which panics if depth is negative or greater than the capacity. *)
Definition a_cut (n : nat) (depth : Z) : f64 -> hmem -> outcome (hmem * hdr) :=
  get_or_panic (fun m => let h := header m n in
    if (depth <? 0) || (depth >? Z.of_nat (s_cap h)) then Panic else Ret (Hdr (s_arr h) (Z.to_nat depth) (s_cap h))).
(** [path[i]], optimizer.go:114-115. *)
Definition a_elem (h : hdr) (i : nat) : f64 -> hmem -> outcome (hmem * option nat) :=
  get (fun m => nth i (nth (s_arr h) (hm_arrays m) []) None).

(** Following such a pointer, [path[i+1].Code] and [p.Vector], which panics if it is nil: optimizer.go:115, 117. *)
Definition a_node (e : option nat) : f64 -> hmem -> outcome (hmem * nat) :=
  get_or_panic (fun _ => match e with Some p => Ret p | None => Panic end).

(** ** The programs *)
Section Programs.
Variable tree : heap.   (* the nodes as built by HuffnamTree: Parent and Code, huffman.go:23-57 *)
Variable sig : f64 -> outcome f64.   (* sigtable.sigmoid *)

(** modelutil.go:26-29. *)
Definition h_next_random (value : Z) : hprog Z :=
  HAct false (get hm_next) (fun n => HAct false (a_set_next (lcg n)) (fun _ => HAct false (get hm_next) (fun n' =>
  let m := value mod W64 in if m =? 0 then HPanic else HRet (int_of_u64 (n' mod m))))).

(** node.go:34-36: [up] is n, n.Parent, ... *)
Fixpoint h_appends (n : nat) (up : list nat) : hprog unit :=
  match up with
  | [] => HRet tt
  | p :: up' => HAct false (a_append n p) (fun _ => h_appends n up')
  end.
(** node.go:29-31; [fuel] is the number of swaps, half the length. *)
Fixpoint h_reverse (h : hdr) (fuel i : nat) : hprog unit :=
  match fuel with
  | O => HRet tt
  | S k => HAct false (a_swap h i (s_len h - 1 - i)) (fun _ => h_reverse h k (S i))
  end.
(** node.go:39-42. *)
Definition h_cut (n : nat) (depth : Z) : hprog hdr :=
  HAct false (a_len n) (fun len =>
  if depth >? len then HAct false (a_len n) (fun len' => HAct false (a_cut n len') HRet)
  else HAct false (a_cut n depth) HRet).
(** node.go:26-43, [GetPath]. *)
Definition h_getpath (n : nat) (depth : Z) : hprog hdr :=
  HAct false (a_is_nil n) (fun b =>
  if b then
    HAct false (a_make n) (fun _ =>
    hbind (h_appends n (path_up (length tree) tree n)) (fun _ =>
    HAct false (a_header n) (fun h =>
    hbind (h_reverse h (Nat.div2 (s_len h)) 0) (fun _ => h_cut n depth))))
  else h_cut n depth).

(** [ctx] in optim: a row of the shared parameters (skip-gram) or the goroutine's own vector (CBOW). model.go:71-73, 117-119. *)
Inductive hsrc := HShared (row : Z) | HOwn (v : list f64).
(** [ctx[j]], optimizer.go:118, 126. *)
Definition h_src (c : hsrc) (j : Z) : hprog f64 :=
  match c with
  | HShared row => HAct false (a_param row j) HRet
  | HOwn v => match zindex v j with Some x => HRet x | None => HPanic end
  end.

(** optimizer.go:116-119. *)
Fixpoint h_inner (p : nat) (ctx : hsrc) (n : nat) (j : Z) (acc : f64) : hprog f64 :=
  match n with
  | O => HRet acc
  | S k => hbind (h_src ctx j) (fun c => HAct false (a_vec p j) (fun v => h_inner p ctx k (j + 1) (fadd acc (fmul c v))))
  end.
(** optimizer.go:124-127; [tmp] belongs to the goroutine. *)
Fixpoint h_apply (p : nat) (ctx : hsrc) (g : f64) (n : nat) (j : Z) (tmp : list f64) : hprog (list f64) :=
  match n with
  | O => HRet tmp
  | S k =>
      HAct false (a_vec p j) (fun v =>
      match zindex tmp j with
      | None => HPanic
      | Some t =>
          HAct false (a_vec p j) (fun v' => hbind (h_src ctx j) (fun c =>
          HAct false (a_set_vec p j (fadd v' (fmul g c))) (fun _ =>
          h_apply p ctx g k (j + 1) (upd tmp (Z.to_nat j) (fadd t (fmul g v))))))
      end)
  end.
(** optimizer.go:113-128 from index [i] on, with [n] iterations left. *)
Fixpoint h_hs_loop (lr : f64) (ctx : hsrc) (path : hdr) (n i : nat) (tmp : list f64) : hprog (list f64) :=
  match n with
  | O => HRet tmp
  | S k =>
      HAct false (a_elem path i) (fun e => HAct false (a_elem path (S i)) (fun e' =>
      HAct false (a_node e') (fun q => HAct false (a_node e) (fun p =>
      HAct false (a_veclen p) (fun len =>
      hbind (h_inner p ctx len 0 fzero) (fun inner =>
      if fle inner (fopp max_exp) || fge inner max_exp then HRet tmp
      else
        HAct false (get_or_panic (fun _ => sig inner)) (fun s =>
        let g := fmul (fsub (fsub (f_of_Z 1) (f_of_Z (Z.of_nat (hn_code (hget tree q))))) s) lr in
        hbind (h_apply p ctx g len 0 tmp) (fun tmp' => h_hs_loop lr ctx path k (S i) tmp'))))))))
  end.
(** optimizer.go:107-129; [set] is nodeset. *)
Definition h_optim (set : list nat) (maxDepth : Z) (lr : f64) (ctx : hsrc) (id : Z) (tmp : list f64) : hprog (list f64) :=
  match zindex set id with
  | None => HPanic
  | Some n => hbind (h_getpath n maxDepth) (fun path => h_hs_loop lr ctx path (pred (s_len path)) 0 tmp)
  end.

(** model.go:60-77, 133-144: the window loop. *)
Fixpoint h_win_loop {St} (body : Z -> St -> hprog St) (len pos window : Z) (n : nat) (a : Z) (st : St) : hprog St :=
  match n with
  | O => HRet st
  | S k =>
      hbind (if a =? window then HRet st
             else let c := pos - window + a in
                  if (c <? 0) || (c >=? len) then HRet st else body c st)
            (h_win_loop body len pos window k (a + 1))
  end.
(** model.go:60, 133. *)
Definition h_windowed {St} (body : Z -> St -> hprog St) (len pos window del : Z) (st : St) : hprog St :=
  h_win_loop body len pos window (Z.to_nat (window * 2 + 1 - del - del)) del st.

(** model.go:74-76, 153-157: [ctx[i] += tmp[i]]. *)
Fixpoint h_add_row (row : Z) (n : nat) (i : Z) (tmp : list f64) : hprog unit :=
  match n with
  | O => HRet tt
  | S k => HAct false (a_param row i) (fun x =>
           match zindex tmp i with
           | None => HPanic
           | Some t => HAct false (a_set_param row i (fadd x t)) (fun _ => h_add_row row k (i + 1) tmp)
           end)
  end.
(** model.go:68-76; [dim] is len(ctx). *)
Definition h_sg_body (set : list nat) (maxDepth : Z) (lr : f64) (dim : nat) (doc : list Z) (pos c : Z) (tmp : list f64) : hprog (list f64) :=
  match zindex doc c, zindex doc pos with
  | Some u, Some w =>
      HAct false (a_slice u) (fun _ =>
      hbind (h_optim set maxDepth lr (HShared u) w (map (fun _ => fzero) tmp)) (fun tmp' =>
      hbind (h_add_row u dim 0 tmp') (fun _ => HRet tmp')))
  | _, _ => HPanic
  end.
(** model.go:48-78; [tmp] is the scratch vector received from the channel. *)
Definition h_sg_train_one (set : list nat) (maxDepth : Z) (lr : f64) (dim : nat) (window : Z) (doc : list Z) (tmp : list f64) (pos : Z) : hprog unit :=
  hbind (h_next_random window) (fun del =>
  hbind (h_windowed (h_sg_body set maxDepth lr dim doc pos) (Z.of_nat (length doc)) pos window del tmp) (fun _ => HRet tt)).

(** model.go:147-151: [agg[i] += ctx[i]]. *)
Fixpoint h_collect (row : Z) (n : nat) (i : Z) (agg : list f64) : hprog (list f64) :=
  match n with
  | O => HRet agg
  | S k => match zindex agg i with
           | None => HPanic
           | Some a => HAct false (a_param row i) (fun x => h_collect row k (i + 1) (upd agg (Z.to_nat i) (fadd a x)))
           end
  end.
(** model.go:141-143 with aggregate. *)
Definition h_cb_aggregate (dim : nat) (doc : list Z) (c : Z) (agg : list f64) : hprog (list f64) :=
  match zindex doc c with Some u => HAct false (a_slice u) (fun _ => h_collect u dim 0 agg) | None => HPanic end.
(** model.go:141-143 with update. *)
Definition h_cb_update (dim : nat) (doc : list Z) (c : Z) (tmp : list f64) : hprog (list f64) :=
  match zindex doc c with Some u => HAct false (a_slice u) (fun _ => hbind (h_add_row u dim 0 tmp) (fun _ => HRet tmp)) | None => HPanic end.
(** model.go:125-145, [dowith]. *)
Definition h_dowith (window : Z) (doc : list Z) (pos : Z) (fn : Z -> list f64 -> hprog (list f64)) (v : list f64) : hprog (list f64) :=
  hbind (h_next_random window) (fun del => h_windowed fn (Z.of_nat (length doc)) pos window del v).
(** model.go:104-123. *)
Definition h_cb_train_one (set : list nat) (maxDepth : Z) (lr : f64) (dim : nat) (window : Z) (doc : list Z) (agg tmp : list f64) (pos : Z) : hprog unit :=
  let zero := map (fun _ => fzero) in
  hbind (h_dowith window doc pos (h_cb_aggregate dim doc) (zero agg)) (fun agg' =>
  match zindex doc pos with
  | None => HPanic
  | Some w =>
      hbind (h_optim set maxDepth lr (HOwn agg') w (zero tmp)) (fun tmp' =>
      hbind (h_dowith window doc pos (h_cb_update dim doc) tmp') (fun _ => HRet tt))
  end).

(** word2vec.go:197-202: the loop over the document with the subsampler. *)
Fixpoint h_visit (samples : list f64) (train : Z -> hprog unit) (pos : Z) (todo : list nat) : hprog unit :=
  match todo with
  | [] => HRet tt
  | id :: todo' =>
      HAct true a_rand (fun x =>
      match trial samples id x with
      | Ret b => hbind (if b then train pos else HRet tt) (fun _ => h_visit samples train (pos + 1) todo')
      | _ => HPanic
      end)
  end.
(** word2vec.go:182-205: one goroutine; currentlr is read at each call of trainOne. *)
Definition h_worker (cbow : bool) (set : list nat) (maxDepth : Z) (dim : nat) (window : Z) (samples : list f64) (agg tmp : list f64) (doc : list nat) : hprog unit :=
  h_visit samples (fun pos => HAct false (get hm_lr) (fun lr =>
    if cbow then h_cb_train_one set maxDepth lr dim window (map Z.of_nat doc) agg tmp pos
    else h_sg_train_one set maxDepth lr dim window (map Z.of_nat doc) tmp pos)) 0 doc.
End Programs.

(** ** Execution *)

(** The goroutines of one iteration, started at word2vec.go:152, 173. *)
Record hsystem := HSys { hy_mem : hmem; hy_threads : list (hprog unit) }.

(** The goroutine has reached the end of word2vec.go:182-205. *)
Definition hdone {R} (p : hprog R) : bool := match p with HRet _ => true | _ => false end.

(** One access of one goroutine; [x] is the random number, if it draws one. word2vec.go:182-205. *)
Definition hexec {R} (x : f64) (m : hmem) (p : hprog R) : outcome (hmem * hprog R) :=
  match p with
  | HRet r => Ret (m, p)
  | HPanic => Panic
  | HAct rnd f k => obind (f x m) (fun '(m', a) => Ret (m', k a))
  end.

(** A step of some goroutine, or observe writing currentlr (word2vec.go:213, 215). *)
Inductive hstep : hsystem -> outcome hsystem -> Prop :=
| hs_thread m ts i p x : nth_error ts i = Some p -> hdone p = false ->
    hstep (HSys m ts) (obind (hexec x m p) (fun '(m', p') => Ret (HSys m' (upd ts i p'))))
| hs_rate m ts lr : hstep (HSys m ts) (Ret (HSys (HMem (hm_p m) (hm_vecs m) (hm_cache m) (hm_arrays m) (hm_next m) lr) ts)).

(** Executions without failure, interleaving the goroutines of word2vec.go:182-205. *)
Inductive hruns : hsystem -> hsystem -> Prop :=
| hr_refl s : hruns s s
| hr_step s s' s'' : hruns s s' -> hstep s' (Ret s'') -> hruns s s''.

(** A goroutine running alone to its end; [k] counts the random numbers. word2vec.go:182-205 with Goroutines = 1. *)
Fixpoint hrun {R} (rand : nat -> f64) (p : hprog R) (k : nat) (m : hmem) : outcome (nat * hmem * R) :=
  match p with
  | HRet r => Ret (k, m, r)
  | HPanic => Panic
  | HAct rnd f k' => obind (f (rand k) m) (fun '(m', a) => hrun rand (k' a) (if rnd then S k else k) m')
  end.

(** The memory when the goroutines start, for freshly built nodes: word2vec.go:124 after HuffnamTree. *)
Definition hs_mem (next : Z) (lr : f64) (p : matrix) (tree : heap) : hmem :=
  HMem p (map hn_vec tree) (map (fun _ => None) tree) [] next lr.

(** word2vec.go:149-153, 171-174, 182-205 for hierarchical softmax: one goroutine for each slice of the text. *)
Definition hs_workers (sig : f64 -> outcome f64) (o : w2v_opts) (w : w2v) (scratch : list f64) (slices : list (list nat)) : list (hprog unit) :=
  match wv_opt w with
  | HS tree set d => map (h_worker tree sig (match wv_mod w with Cbow => true | SkipGram => false end) set d (Z.to_nat (w2v_Dim o)) (w2v_Window o) (wv_samples w) scratch scratch) slices
  | NS _ _ => []
  end.
