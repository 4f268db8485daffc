(** * C31-C35, C70, C71: word2vec training steps *)
From Coq Require Import Sorting.Sorted.
From Verif.Lib Require Import Go F64 F64Facts.
From Verif.Model Require Import Dictionary ModelUtil Matrix Huffman Sigmoid Window Word2vec.
From Verif.Spec Require Import Rows Training Tree Reach.
From Verif.Proofs Require Window Word2vec TrainOne W2vProps.
Local Open Scope Z_scope.

(** C31. Whatever the loop does with a position ([body]), it does it for exactly the positions of
    [context pos (window - del) len], in that order. *)
Theorem C31_window_positions : forall (St : Type) (body : Z -> St -> outcome St) (len : nat) pos window del st,
  0 <= del < window ->
  windowed body (Z.of_nat len) pos window del st = ofold body (context pos (window - del) len) st.
Proof. intros. apply Window.windowed_context. now split; [|apply Z.lt_le_incl]. Qed.
Print Assumptions C31_window_positions.

Theorem C31_context : forall pos r len,
  StronglySorted Z.lt (context pos r len) /\
  forall c, In c (context pos r len) <-> 0 <= c < Z.of_nat len /\ 1 <= Z.abs (c - pos) <= r.
Proof. intros. split; [apply Window.context_sorted|]. intros. apply Window.context_In. Qed.
Print Assumptions C31_context.

Theorem C31_skipgram : forall sig window doc pos lr st, 1 <= window < 2 ^ 63 ->
  sg_train_one sig window doc pos lr st =
  ofold (sg_body sig doc pos lr) (context pos (window - lcg (s_next st) mod window) (length doc))
    (WState (lcg (s_next st)) (s_param st) (s_opt st) (s_agg st) (s_tmp st)).
Proof. exact W2vProps.skipgram_window. Qed.
Print Assumptions C31_skipgram.

Theorem C31_cbow : forall window doc pos fn st, 1 <= window < 2 ^ 63 ->
  cb_dowith window doc pos fn st =
  ofold fn (context pos (window - lcg (s_next st) mod window) (length doc))
    (WState (lcg (s_next st)) (s_param st) (s_opt st) (s_agg st) (s_tmp st)).
Proof. exact W2vProps.dowith_window. Qed.
Print Assumptions C31_cbow.

Example C31_case : context 3 2 10 = [1; 2; 4; 5] /\ context 0 2 2 = [1] /\
  windowed (fun c l => Ret (l ++ [c])) 10 3 5 3 [] = Ret [1; 2; 4; 5].
Proof. vm_compute. auto. Qed.

(** C32. CBOW: [w1] is the window whose vectors are summed, [w2] the one whose vectors change. *)
Theorem C32_cbow_two_windows : forall sig calls dim window doc pos lr next rows opt agg tmp,
  let d := fold_left dict_add calls dict_new in let V := dict_len d in
  Z.of_nat V < 2 ^ 63 -> 1 <= window < 2 ^ 63 -> Forall (fun id => (id < V)%nat) doc -> (pos < length doc)%nat ->
  opt_reach sig d dim opt ->
  all_len dim rows -> length rows = V -> length agg = dim -> length tmp = dim ->
  let word c := nth (Z.to_nat c) doc 0%nat in
  let w1 := context (Z.of_nat pos) (window - lcg next mod window) (length doc) in
  let agg1 := fold_left (fun a c => vplus a (nth (word c) rows [])) w1 (repeat fzero dim) in
  cb_train_one sig window (map Z.of_nat doc) (Z.of_nat pos) lr (WState next (of_rows dim rows) opt agg tmp) =
  obind (optim sig opt lr agg1 (Z.of_nat (nth pos doc 0%nat)) (lcg next) (repeat fzero dim)) (fun '(next2, opt', tmp') =>
  let w2 := context (Z.of_nat pos) (window - lcg next2 mod window) (length doc) in
  Ret (WState (lcg next2)
        (of_rows dim (fold_left (fun rs c => upd rs (word c) (vplus (nth (word c) rs []) tmp')) w2 rows))
        opt' agg1 tmp')).
Proof. exact W2vProps.cbow_reach_lemma. Qed.
Print Assumptions C32_cbow_two_windows.

(** With hierarchical softmax and window 2 the two radii always differ ... *)
Theorem C32_cbow_hs_windows_differ : forall sig h set depth lr ctx id next tmp next2 opt' tmp',
  optim sig (HS h set depth) lr ctx id (lcg next) tmp = Ret (next2, opt', tmp') ->
  2 - lcg next mod 2 <> 2 - lcg next2 mod 2.
Proof. exact W2vProps.cbow_hs_differ. Qed.
Print Assumptions C32_cbow_hs_windows_differ.

(** ... and with negative sampling of [k] samples they differ exactly when [k] is even. *)
Theorem C32_cbow_ns_windows_differ : forall sig rows dim k lr ctx id next tmp next2 opt' tmp',
  all_len dim rows -> (id < length rows)%nat -> Z.of_nat (length rows) < 2 ^ 63 ->
  length ctx = dim -> length tmp = dim ->
  optim sig (NS (of_rows dim rows) (Z.of_nat k)) lr ctx (Z.of_nat id) (lcg next) tmp = Ret (next2, opt', tmp') ->
  (2 - lcg next mod 2 <> 2 - lcg next2 mod 2 <-> Z.of_nat k mod 2 = 0).
Proof. exact W2vProps.cbow_ns_differ. Qed.
Print Assumptions C32_cbow_ns_windows_differ.

(** Default window 5 and 5 samples: from the initial generator state the radii are 2 and 4. *)
Example C32_case : 5 - lcg rand_init mod 5 = 2 /\ 5 - lcg (Nat.iter 5 lcg (lcg rand_init)) mod 5 = 4.
Proof. vm_compute. auto. Qed.

(** C33. [ns_steps]: the word with label 1, then the draws that differ from it with label 0;
    [ns_row_step]: g = (label - prediction) * lr, row += g * ctx, tmp += g * row. *)
Theorem C33_negative_sampling : forall sig k lr ctx id next rows tmp dim,
  all_len dim rows -> (id < length rows)%nat -> Z.of_nat (length rows) < 2 ^ 63 ->
  length ctx = dim -> length tmp = dim ->
  ns_optim sig (Z.of_nat k) lr ctx (Z.of_nat id) next (of_rows dim rows) tmp =
  obind (ofold (ns_row_step sig lr ctx) (ns_steps id next (Z.of_nat (length rows)) k) (rows, tmp))
    (fun '(rows', tmp') => Ret (Nat.iter k lcg next, of_rows dim rows', tmp')).
Proof. exact Word2vec.ns_optim_lemma. Qed.
Print Assumptions C33_negative_sampling.

Theorem C33_negative_sampling_frame : forall sig k lr ctx id next rows tmp dim next' m' tmp',
  all_len dim rows -> (id < length rows)%nat -> Z.of_nat (length rows) < 2 ^ 63 ->
  length ctx = dim -> length tmp = dim ->
  ns_optim sig (Z.of_nat k) lr ctx (Z.of_nat id) next (of_rows dim rows) tmp = Ret (next', m', tmp') ->
  exists rows', m' = of_rows dim rows' /\ next' = Nat.iter k lcg next /\
    all_len dim rows' /\ length rows' = length rows /\ length tmp' = dim /\
    (forall q, q <> id -> ~ In q (map (draw next (Z.of_nat (length rows))) (seq 0 k)) ->
       nth q rows' [] = nth q rows []).
Proof. exact Word2vec.ns_optim_frame. Qed.
Print Assumptions C33_negative_sampling_frame.

(** All draws are rows of the matrix. *)
Theorem C33_draws_in_range : forall id next v k, (id < Z.to_nat v)%nat -> 1 <= v ->
  Forall (fun s => (fst s < Z.to_nat v)%nat) (ns_steps id next v k).
Proof. exact Word2vec.ns_steps_lt. Qed.
Print Assumptions C33_draws_in_range.

Example C33_case :
  ns_steps 1 rand_init 3 4 = [(1%nat, 1); (0%nat, 0); (2%nat, 0); (2%nat, 0)] /\
  map (draw rand_init 3) (seq 0 4) = [0; 1; 2; 2]%nat.
Proof. vm_compute. auto. Qed.

(** C34. For every tree state reachable by training, the nodes on the path of the word (cut to
    [depth] nodes) except the last are processed in order, with the code of the next node. *)
Theorem C34_hierarchical_softmax : forall sig calls dim h set depth,
  let d := fold_left dict_add calls dict_new in
  Z.of_nat (dict_len d) < 2 ^ 63 -> opt_reach sig d dim (HS h set depth) ->
  forall id lr ctx next tmp, (id < dict_len d)%nat -> length ctx = dim -> length tmp = dim ->
  exists p, root_path (fun y => hn_parent (hget h y)) p id /\
  let steps := path_steps (fun q => hn_code (hget h q)) (firstn (Z.to_nat depth) p) in
  match hs_steps_run sig lr ctx steps (fun x => hn_vec (hget h x)) tmp with
  | Ret (vecs', tmp') => exists h', optim sig (HS h set depth) lr ctx (Z.of_nat id) next tmp = Ret (next, HS h' set depth, tmp') /\
      (forall x, hn_vec (hget h' x) = vecs' x) /\
      (forall x, ~ In x (removelast (firstn (Z.to_nat depth) p)) -> hn_vec (hget h' x) = hn_vec (hget h x)) /\
      (forall x, hn_code (hget h' x) = hn_code (hget h x) /\ hn_parent (hget h' x) = hn_parent (hget h x))
  | Err e => optim sig (HS h set depth) lr ctx (Z.of_nat id) next tmp = Err e
  | Panic => optim sig (HS h set depth) lr ctx (Z.of_nat id) next tmp = Panic
  end.
Proof. exact W2vProps.hs_reach_lemma. Qed.
Print Assumptions C34_hierarchical_softmax.

(** The updated nodes are parents of other nodes, so never leaves (C17). *)
Theorem C34_never_a_leaf : forall par p n k x,
  root_path par p n -> In x (removelast (firstn k p)) -> exists y, par y = Some x.
Proof. exact W2vProps.removelast_parent. Qed.
Print Assumptions C34_never_a_leaf.

(** C71. A depth limit of 0 or 1 trains nothing: no node vector and no [tmp] changes. *)
Theorem C71_max_depth_0_trains_nothing : forall sig calls dim h set depth,
  let d := fold_left dict_add calls dict_new in
  Z.of_nat (dict_len d) < 2 ^ 63 -> opt_reach sig d dim (HS h set depth) -> depth = 0 \/ depth = 1 ->
  forall id lr ctx next tmp, (id < dict_len d)%nat -> length ctx = dim -> length tmp = dim ->
  exists h', optim sig (HS h set depth) lr ctx (Z.of_nat id) next tmp = Ret (next, HS h' set depth, tmp) /\
    forall x, hn_vec (hget h' x) = hn_vec (hget h x).
Proof.
  intros sig calls dim h set depth d HV HR Hd id lr ctx next tmp Hid Hc Ht.
  destruct (W2vProps.hs_reach_lemma sig calls dim h set depth HV HR id lr ctx next tmp Hid Hc Ht) as (p & Hp & H).
  assert (E : path_steps (fun q => hn_code (hget h q)) (firstn (Z.to_nat depth) p) = []).
  { destruct Hd as [-> | ->]; [reflexivity|]. destruct p as [|a p]; reflexivity. }
  rewrite E in H. cbn [hs_steps_run] in H. destruct H as (h' & H1 & H2 & _). exists h'. split; auto.
Qed.
Print Assumptions C71_max_depth_0_trains_nothing.

Definition half : f64 -> outcome f64 := fun _ => Ret (f_dec 5 1).
Definition sample_dict := fold_left dict_add
  [[bs "a"; bs "b"; bs "a"]; [bs "c"; bs "a"; bs "d"; bs "c"; bs "a"]] dict_new.
Definition shown_vecs (h : heap) := map (fun n => map fshow (hn_vec n)) h.

(** One optim call on word 1 with a zero tree: the three inner nodes of its path get +-0.5*ctx. *)
Example C34_case :
  match huffman_tree sample_dict 1 with
  | Ret (h, set) =>
      match optim half (HS h set 100) (f_of_Z 1) [f_of_Z 1] 1 7 [fzero] with
      | Ret (_, HS h' _ _, tmp) => (shown_vecs h', map fshow tmp)
      | _ => ([], [])
      end
  | _ => ([], [])
  end = ([[]; []; []; []; [fshow (f_dec 5 1)]; [fshow (f_dec 5 1)]; [fshow (f_dec 5 1)]], [Some (0, 0)]).
Proof. vm_compute. reflexivity. Qed.

(** C35. [marked exp] is the table lookup, except that the two kinds of argument for which the
    lookup panics (NaN and the float64 just below 6, C29) give an error instead. With it, one
    trainOne call of either model never panics: so those two lookups are the only panics of the
    call with the real table. Otherwise all sizes and the optimizer's well-formedness are
    preserved, and rows of words outside the window are unchanged. *)
Definition marked (exp : f64 -> f64) (x : f64) : outcome f64 :=
  if isnan x || feq x (f_of_ratio false (6 * 2 ^ 50 - 1) (2 ^ 50)) then Err "lookup"%string
  else sigmoid (sig_table exp) x.

Theorem C35_train_one_safe : forall exp calls dim window doc pos lr next rows opt agg tmp train,
  let sig := sigmoid (sig_table exp) in
  let d := fold_left dict_add calls dict_new in let V := dict_len d in
  Z.of_nat V < 2 ^ 63 -> 1 <= window < 2 ^ 63 -> Forall (fun id => 0 <= id < Z.of_nat V) doc ->
  0 <= pos < Z.of_nat (length doc) -> opt_reach sig d dim opt ->
  all_len dim rows -> length rows = V -> length agg = dim -> length tmp = dim ->
  train = sg_train_one \/ train = cb_train_one ->
  let st := WState next (of_rows dim rows) opt agg tmp in
  match train (marked exp) window doc pos lr st with
  | Panic => False
  | Err _ => train sig window doc pos lr st = Panic
  | Ret st' => train sig window doc pos lr st = Ret st' /\
      exists rows', s_param st' = of_rows dim rows' /\
      all_len dim rows' /\ length rows' = V /\ opt_reach sig d dim (s_opt st') /\
      length (s_agg st') = dim /\ length (s_tmp st') = dim /\
      forall r, (forall c, In c (context pos window (length doc)) -> nth (Z.to_nat c) doc 0 <> Z.of_nat r) ->
        nth r rows' [] = nth r rows []
  end.
Proof. exact W2vProps.train_one_lemma. Qed.
Print Assumptions C35_train_one_safe.

(** Window 0 panics in both models. *)
Theorem C35_window_zero_panics : forall sig doc pos lr st,
  sg_train_one sig 0 doc pos lr st = Panic /\ cb_train_one sig 0 doc pos lr st = Panic.
Proof. intros. split; reflexivity. Qed.
Print Assumptions C35_window_zero_panics.

Definition shown_state (o : outcome wstate) :=
  match o with
  | Ret st => Some (s_next st, map fshow (m_array (s_param st)),
                    match s_opt st with NS m _ => map fshow (m_array m) | _ => [] end)
  | _ => None
  end.

(** Three words, one dimension, window 1: only the two neighbours' rows change. *)
Example C35_case :
  let st := WState rand_init (of_rows 1 [[f_of_Z 1]; [f_of_Z 7]; [f_of_Z 2]; [f_of_Z 4]])
                   (NS (of_rows 1 [[fzero]; [f_of_Z 1]; [fzero]; [fzero]]) 0) [fzero] [fzero] in
  shown_state (sg_train_one half 1 [0; 1; 2; 3] 1 (f_of_Z 2) st) =
  Some (lcg rand_init, map fshow [f_of_Z 2; f_of_Z 7; f_of_Z 4; f_of_Z 4],
        map fshow [fzero; f_of_Z 4; fzero; fzero]).
Proof. vm_compute. reflexivity. Qed.

(** C70. Results do not depend on what is left in the scratch buffers by earlier calls. *)
Theorem C70_scratch_independent_skipgram : forall sig window doc pos lr a b,
  s_next a = s_next b -> s_param a = s_param b -> s_opt a = s_opt b ->
  length (s_agg a) = length (s_agg b) -> length (s_tmp a) = length (s_tmp b) ->
  match sg_train_one sig window doc pos lr a, sg_train_one sig window doc pos lr b with
  | Ret a', Ret b' => s_next a' = s_next b' /\ s_param a' = s_param b' /\ s_opt a' = s_opt b'
  | Err e, Err f => e = f
  | Panic, Panic => True
  | _, _ => False
  end.
Proof.
  intros sig window doc pos lr a b H1 H2 H3 H4 H5.
  pose proof (TrainOne.sg_scratch sig window doc pos lr a b (conj H1 (conj H2 (conj H3 (conj H4 H5))))) as H.
  unfold TrainOne.agree, TrainOne.same_but_scratch in H.
  destruct (sg_train_one sig window doc pos lr a), (sg_train_one sig window doc pos lr b); tauto.
Qed.
Print Assumptions C70_scratch_independent_skipgram.

Theorem C70_scratch_independent_cbow : forall sig window doc pos lr a b,
  s_next a = s_next b -> s_param a = s_param b -> s_opt a = s_opt b ->
  length (s_agg a) = length (s_agg b) -> length (s_tmp a) = length (s_tmp b) ->
  cb_train_one sig window doc pos lr a = cb_train_one sig window doc pos lr b.
Proof.
  intros sig window doc pos lr a b H1 H2 H3 H4 H5.
  exact (TrainOne.cb_scratch sig window doc pos lr a b (conj H1 (conj H2 (conj H3 (conj H4 H5))))).
Qed.
Print Assumptions C70_scratch_independent_cbow.

Example C70_case :
  let st tmp := WState rand_init (of_rows 1 [[f_of_Z 1]; [f_of_Z 2]])
                   (NS (of_rows 1 [[f_of_Z 1]; [f_of_Z 3]]) 1) [f_of_Z 9] tmp in
  shown_state (sg_train_one half 1 [0; 1] 0 (f_of_Z 1) (st [f_of_Z 7])) =
  shown_state (sg_train_one half 1 [0; 1] 0 (f_of_Z 1) (st [f_of_Z 8])).
Proof. vm_compute. reflexivity. Qed.

(** The tree of two words with dimension 1, as built, with MaxDepth 0 (C71). *)
Example C71_case : exists h set, let d := fold_left dict_add [[bs "a"; bs "b"]] dict_new in
  opt_reach half d 1 (HS h set 0) /\ dict_len d = 2%nat /\ length h = 3%nat.
Proof.
  destruct (huffman_tree (fold_left dict_add [[bs "a"; bs "b"]] dict_new) (Z.of_nat 1)) as [[h set]| |] eqn:E; [|vm_compute in E; discriminate E|vm_compute in E; discriminate E].
  exists h, set. split; [apply or_hs; [exact E|apply Z.le_refl]|]. split; [reflexivity|].
  apply (f_equal (fun r => match r with Ret (h, _) => length h | _ => 0%nat end)) in E. vm_compute in E. symmetry. exact E.
Qed.
