(** * Model of pkg/corpus/dictionary/huffman.go and pkg/corpus/dictionary/node/node.go *)
From Verif.Lib Require Import Go F64.
From Verif.Model Require Import Dictionary.

(** node.go:17-24, [type Node struct]. A [*Node] is an index into the heap (a list of
    nodes); a nil [cache] or [Parent] is [None]; a nil [Vector] is [[]]. *)
Record hnode := HNode {
  hn_cache : option (list nat);
  hn_parent : option nat;
  hn_val : nat;
  hn_code : nat;
  hn_vec : list f64
}.

(** The nodes that node.go:17-24 and huffman.go:27, 39 allocate, by address. *)
Definition heap := list hnode.
(** A node with zero fields, node.go:17-24. *)
Definition node0 : hnode := HNode None None 0 0 [].
(** Following a pointer to a node (node.go:19, 34). *)
Definition hget (h : heap) (p : nat) : hnode := nth p h node0.

(** huffman.go:26-32: the leaf allocated for one id. *)
Definition leaf_node (v : nat) : hnode := HNode None None v 0 [].

(** huffman.go:34-36: [sort.SliceStable] by [Val]. A stable sort has exactly one possible result;
    it is modelled by stable insertion sort instead of the library's algorithm. *)
Fixpoint insert_stable (key : nat -> nat) (x : nat) (l : list nat) : list nat :=
  match l with
  | [] => [x]
  | y :: l' => if key x <=? key y then x :: l else y :: insert_stable key x l'
  end.
(** huffman.go:34-36, see above. *)
Definition sort_stable (key : nat -> nat) (l : list nat) : list nat :=
  fold_right (insert_stable key) [] l.

(** Go's [sort.Search] (called at huffman.go:47-49): binary search on [[i,j)]. *)
Fixpoint bsearch (fuel : nat) (f : nat -> bool) (i j : nat) : nat :=
  match fuel with
  | O => i
  | S k => if i <? j then
             let h := (i + j) / 2 in
             if f h then bsearch k f i h else bsearch k f (S h) j
           else i
  end.
(** huffman.go:47-49, see above. *)
Definition sort_search (n : nat) (f : nat -> bool) : nat := bsearch (S n) f 0 n.

(** huffman.go:43-44: [x.Code = c; x.Parent = m]. *)
Definition link (h : heap) (x c m : nat) : heap :=
  let n := hget h x in
  upd h x (HNode (hn_cache n) (Some m) (hn_val n) c (hn_vec n)).

(** huffman.go:38-53: one iteration of the merge loop on at least two nodes.
    [merged] is allocated at the end of the heap; the append/copy/assign of lines 51-53
    is insertion at [idx]. [dim] is non-negative here (see [huffman_tree]). *)
Definition merge_step (dim : nat) (h : heap) (l r : nat) (rest : list nat) : heap * list nat :=
  let v := hn_val (hget h l) + hn_val (hget h r) in
  let m := length h in
  let h1 := h ++ [HNode None None v 0 (repeat fzero dim)] in
  let h2 := link h1 l 0 m in
  let h3 := link h2 r 1 m in
  let idx := sort_search (length rest) (fun i => v <=? hn_val (hget h3 (nth i rest 0))) in
  (h3, firstn idx rest ++ m :: skipn idx rest).

(** huffman.go:37-54: the loop [for len(nodes) > 1]; each iteration removes one node, so
    [length nodes] iterations suffice. *)
Fixpoint merge_loop (fuel : nat) (dim : nat) (h : heap) (nodes : list nat) : heap * list nat :=
  match fuel with
  | O => (h, nodes)
  | S k => match nodes with
           | l :: r :: rest =>
               let '(h', nodes') := merge_step dim h l r rest in merge_loop k dim h' nodes'
           | _ => (h, nodes)
           end
  end.

(** huffman.go:26-32: [d.IDFreq(i)] for [i = 0 .. maxid-1]. *)
Fixpoint id_freqs (d : dict) (ids : list nat) : outcome (list nat) :=
  match ids with
  | [] => Ret []
  | i :: ids' => obind (dict_id_freq d (Z.of_nat i)) (fun f =>
                 obind (id_freqs d ids') (fun fs => Ret (f :: fs)))
  end.

(** huffman.go:23-57, [HuffnamTree]: the heap after the call and the returned slice [set].
    [make([]float64, dim)] panics for a negative [dim] (reached when there are two nodes). *)
Definition huffman_tree (d : dict) (dim : Z) : outcome (heap * list nat) :=
  obind (id_freqs d (seq 0 (maxid d))) (fun fs =>
    let h0 := map leaf_node fs in
    let set := seq 0 (maxid d) in
    let nodes := sort_stable (fun i => hn_val (hget h0 i)) set in
    if ((1 <? length nodes) && (dim <? 0)%Z)%bool then Panic
    else let '(h, _) := merge_loop (length nodes) (Z.to_nat dim) h0 nodes in
         Ret (h, set)).

(** node.go:34-36: the loop [for p := n; p != nil; p = p.Parent] appending [p] to the cache.
    Go has no bound here; [fuel] is the number of nodes, enough for every acyclic heap
    (proved for the heaps built above). *)
Fixpoint path_up (fuel : nat) (h : heap) (p : nat) : list nat :=
  match fuel with
  | O => []
  | S k => p :: match hn_parent (hget h p) with
                | None => []
                | Some q => path_up k h q
                end
  end.

(** node.go:26-43, [GetPath], called from one goroutine: returns the heap with the cache
    filled and the result. [n.cache[:depth]] with a negative depth panics. *)
Definition get_path (h : heap) (n : nat) (depth : Z) : heap * outcome (list nat) :=
  let nd := hget h n in
  let h' := match hn_cache nd with
            | Some _ => h
            | None => upd h n (HNode (Some (rev (path_up (length h) h n)))
                                     (hn_parent nd) (hn_val nd) (hn_code nd) (hn_vec nd))
            end in
  let cache := match hn_cache (hget h' n) with Some c => c | None => [] end in
  let depth' := if (depth >? Z.of_nat (length cache))%Z then Z.of_nat (length cache) else depth in
  (h', if (depth' <? 0)%Z then Panic else Ret (firstn (Z.to_nat depth') cache)).
