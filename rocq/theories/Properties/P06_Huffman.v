(** * C17-C22: the Huffman tree and GetPath *)
From Coq Require Import Permutation.
From Verif.Lib Require Import Go F64.
From Verif.Model Require Import Dictionary Huffman GetPathRace.
From Verif.Spec Require Import Words Tree.
From Verif.Proofs Require HuffProps GetPathRace.

(** C17. The heap holds the n leaves (ids 0..n-1) and n-1 merged nodes; [hn_parent] etc. are the
    fields of Go's Node. [length (concat calls)] is the number of words added to the dictionary,
    i.e. the sum of all frequencies (C02). *)
Theorem C17_huffman_structure : forall (calls : list (list gostring)) (dim : Z),
  let d := fold_left dict_add calls dict_new in
  let n := dict_len d in
  ((dim < 0)%Z -> 2 <= n -> huffman_tree d dim = Panic) /\
  ((0 <= dim)%Z \/ n <= 1 ->
   exists h, huffman_tree d dim = Ret (h, seq 0 n) /\
    length h = 2 * n - 1 /\
    (forall i, i < n ->
       dict_id_freq d (Z.of_nat i) = Ret (hn_val (hget h i)) /\ hn_vec (hget h i) = [] /\
       (forall c, hn_parent (hget h c) <> Some i)) /\
    (forall m, n <= m < length h -> exists l r,
       l <> r /\ (forall c, c < length h -> (hn_parent (hget h c) = Some m <-> c = l \/ c = r)) /\
       l < length h /\ r < length h /\
       hn_code (hget h l) = 0 /\ hn_code (hget h r) = 1 /\
       hn_val (hget h m) = hn_val (hget h l) + hn_val (hget h r) /\
       hn_vec (hget h m) = repeat fzero (Z.to_nat dim)) /\
    (1 <= n -> exists root, hn_val (hget h root) = length (concat calls) /\
       forall x, x < length h -> exists rest, root_path (fun y => hn_parent (hget h y)) (root :: rest) x)).
Proof. exact HuffProps.huffman_structure_lemma. Qed.
Print Assumptions C17_huffman_structure.

Definition sample_dict := fold_left dict_add
  [[bs "a"; bs "b"; bs "a"]; [bs "c"; bs "a"; bs "d"; bs "c"; bs "a"]] dict_new.
Definition sample_heap : heap :=
  match huffman_tree sample_dict 2 with Ret (h, _) => h | _ => [] end.

Example C17_case :
  map hn_val sample_heap = [4; 1; 2; 1; 2; 4; 8] /\
  map hn_parent sample_heap = [Some 6; Some 4; Some 5; Some 4; Some 5; Some 6; None] /\
  map hn_code sample_heap = [1; 0; 1; 1; 0; 0; 0].
Proof. vm_compute. auto. Qed.

(** C18. The code of a word is the list of [Code] fields on its path below the root. *)
Definition word_code (h : heap) (path : list nat) : list nat :=
  map (fun y => hn_code (hget h y)) (tl path).

Theorem C18_huffman_prefix_free : forall calls dim h set,
  let d := fold_left dict_add calls dict_new in
  huffman_tree d dim = Ret (h, set) ->
  forall i j, i < dict_len d -> j < dict_len d -> i <> j ->
  exists pi pj,
    snd (get_path h i (Z.of_nat (length h))) = Ret pi /\
    snd (get_path h j (Z.of_nat (length h))) = Ret pj /\
    ~ prefix (word_code h pi) (word_code h pj).
Proof. exact HuffProps.huffman_prefix_lemma. Qed.
Print Assumptions C18_huffman_prefix_free.

Example C18_case :
  map (fun i => match snd (get_path sample_heap i 100) with Ret p => word_code sample_heap p | _ => [] end)
      [0; 1; 2; 3] = [[1]; [0; 0; 0]; [0; 1]; [0; 0; 1]].
Proof. vm_compute. auto. Qed.

(** C19. [t] ranges over all binary trees whose leaves are the word ids, each once. *)
Theorem C19_huffman_optimal : forall calls dim h set,
  let d := fold_left dict_add calls dict_new in
  huffman_tree d dim = Ret (h, set) -> 1 <= dict_len d ->
  exists (freq : nat -> nat) (path : nat -> list nat),
  (forall i, i < dict_len d -> dict_id_freq d (Z.of_nat i) = Ret (freq i) /\
     forall depth, (Z.of_nat (length h) <= depth)%Z -> snd (get_path h i depth) = Ret (path i)) /\
  forall t, Permutation (bleaves t) (seq 0 (dict_len d)) ->
    list_sum (map (fun i => freq i * (length (path i) - 1)) (seq 0 (dict_len d))) <= bcost freq 0 t.
Proof. exact HuffProps.huffman_optimal_lemma. Qed.
Print Assumptions C19_huffman_optimal.

Example C19_case :
  huffman_tree sample_dict 2 = Ret (sample_heap, [0; 1; 2; 3]) /\ dict_len sample_dict = 4 /\
  bcost (fun i => nth i [4; 1; 2; 1] 0) 0
    (BNode (BNode (BNode (BLeaf 1) (BLeaf 3)) (BLeaf 2)) (BLeaf 0)) = 14 /\
  bcost (fun i => nth i [4; 1; 2; 1] 0) 0
    (BNode (BNode (BLeaf 0) (BLeaf 1)) (BNode (BLeaf 2) (BLeaf 3))) = 16.
Proof. vm_compute. auto. Qed.

(** C20. *)
Theorem C20_huffman_frequent_short : forall calls dim h set,
  let d := fold_left dict_add calls dict_new in
  huffman_tree d dim = Ret (h, set) ->
  forall a b fa fb, a < dict_len d -> b < dict_len d ->
  dict_id_freq d (Z.of_nat a) = Ret fa -> dict_id_freq d (Z.of_nat b) = Ret fb -> fb < fa ->
  exists pa pb, snd (get_path h a (Z.of_nat (length h))) = Ret pa /\
                snd (get_path h b (Z.of_nat (length h))) = Ret pb /\ length pa <= length pb.
Proof. exact HuffProps.huffman_monotone_lemma. Qed.
Print Assumptions C20_huffman_frequent_short.

Example C20_case :
  dict_id_freq sample_dict 0 = Ret 4 /\ dict_id_freq sample_dict 2 = Ret 2 /\
  snd (get_path sample_heap 0 7) = Ret [6; 0] /\ snd (get_path sample_heap 2 7) = Ret [6; 5; 2].
Proof. vm_compute. auto. Qed.

(** C21. [history] is an arbitrary sequence of earlier GetPath calls (node, depth), including
    calls that panicked. *)
Theorem C21_getpath : forall calls dim h set,
  huffman_tree (fold_left dict_add calls dict_new) dim = Ret (h, set) ->
  forall n, n < length h -> exists p,
  root_path (fun y => hn_parent (hget h y)) p n /\
  forall history : list (nat * Z), Forall (fun c => fst c < length h) history ->
  let h' := fold_left (fun h c => fst (get_path h (fst c) (snd c))) history h in
  (forall depth, snd (get_path h' n depth) =
     if (depth <? 0)%Z then Panic else Ret (firstn (Z.to_nat depth) p)) /\
  (forall x, hn_parent (hget h' x) = hn_parent (hget h x) /\ hn_val (hget h' x) = hn_val (hget h x) /\
             hn_code (hget h' x) = hn_code (hget h x) /\ hn_vec (hget h' x) = hn_vec (hget h x)).
Proof. exact HuffProps.get_path_lemma. Qed.
Print Assumptions C21_getpath.

Example C21_case :
  let h1 := fst (get_path sample_heap 1 2) in
  snd (get_path sample_heap 1 2) = Ret [6; 5] /\ snd (get_path h1 1 100) = Ret [6; 5; 4; 1] /\
  snd (get_path h1 1 0) = Ret [] /\ snd (get_path h1 1 (-1)) = Panic.
Proof. vm_compute. auto. Qed.

(** C22. [up] is the chain node, parent, ..., root, so [rev up] is the root-to-node path.
    Small-step interleavings of GetPath calls on one node ([rcold depths]: all goroutines
    about to start, cache still nil). *)
Theorem C22_getpath_race_wrong_path : forall (up : list nat) (d1 d2 : Z),
  up <> [] -> (1 <= d2)%Z ->
  exists sched s' h d', rrun up (rcold [d1; d2]) sched = Some s' /\
    nth_error (r_threads s') 1 = Some (Thread (PDone h) d') /\
    contents s' h <> firstn (Z.to_nat d2) (rev up).
Proof. exact GetPathRace.race_wrong_lemma. Qed.
Print Assumptions C22_getpath_race_wrong_path.

Theorem C22_getpath_race_panic : forall (up : list nat) (d1 d2 : Z),
  up <> [] -> (1 <= d2)%Z ->
  exists sched s' d', rrun up (rcold [d1; d2]) sched = Some s' /\
    nth_error (r_threads s') 1 = Some (Thread PPanic d').
Proof. exact GetPathRace.race_panic_lemma. Qed.
Print Assumptions C22_getpath_race_panic.

(** The same semantics without interference returns the right path ... *)
Theorem C22_getpath_alone : forall (up : list nat) (d : Z), (0 <= d)%Z ->
  exists n s', rrun up (rcold [d]) (repeat 0 n) = Some s' /\
    exists h d', nth_error (r_threads s') 0 = Some (Thread (PDone h) d') /\
      contents s' h = firstn (Z.to_nat d) (rev up).
Proof. exact GetPathRace.race_alone_lemma. Qed.
Print Assumptions C22_getpath_alone.

(** ... and once the cache holds the full path, every interleaving of any number of calls
    is correct: no call panics (except for a negative depth) or returns anything else. *)
Theorem C22_getpath_warm_safe : forall up h arrs depths,
  firstn (s_len h) (nth (s_arr h) arrs []) = rev up -> s_len h = length up -> s_len h <= s_cap h ->
  forall sched s', rrun up (RState (Some h) arrs (map (Thread PNil) depths)) sched = Some s' ->
  forall t d th, nth_error depths t = Some d -> nth_error (r_threads s') t = Some th ->
    (t_pc th = PPanic -> (d < 0)%Z) /\
    (forall h', t_pc th = PDone h' -> contents s' h' = firstn (Z.to_nat d) (rev up)).
Proof. exact GetPathRace.warm_lemma. Qed.
Print Assumptions C22_getpath_warm_safe.

Example C22_case :
  let up := [1; 4; 5; 6] in
  (exists s, rrun up (rcold [9; 9]%Z) [0; 0; 1; 1; 1; 1] = Some s /\
     nth_error (r_threads s) 1 = Some (Thread (PDone (Hdr 0 0 0)) 0)) /\
  (exists s, rrun up (RState (Some (Hdr 0 4 4)) [[6; 5; 4; 1]] [Thread PNil 2]) [0; 0; 0] = Some s /\
     contents s (Hdr 0 2 4) = [6; 5] /\ nth_error (r_threads s) 0 = Some (Thread (PDone (Hdr 0 2 4)) 2)).
Proof. vm_compute. split; eexists; split; auto. Qed.
