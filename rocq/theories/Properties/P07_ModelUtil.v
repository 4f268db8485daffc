(** * C23-C26: random numbers, work partition, matrices *)
From Verif.Lib Require Import Go F64.
From Verif.Model Require Import ModelUtil Matrix.
From Verif.Spec Require Import Slices Rows.
From Verif.Proofs Require ModelUtil Matrix.
Local Open Scope Z_scope.

(** C23. [s] is any value of the package variable. *)
Theorem C23_next_random_range : forall s v, 1 <= v < 2 ^ 63 ->
  exists r, next_random s v = (lcg s, Ret r) /\ 0 <= r < v.
Proof. exact ModelUtil.next_random_range_lemma. Qed.
Print Assumptions C23_next_random_range.

Theorem C23_next_random_zero : forall s, snd (next_random s 0) = Panic.
Proof. exact ModelUtil.next_random_zero_lemma. Qed.
Print Assumptions C23_next_random_zero.

Example C23_case : next_random rand_init 10 = (25214903928, Ret 8) /\ next_random 25214903928 7 = (8602081314781131043, Ret 6).
Proof. vm_compute. auto. Qed.

(** C24. States are the uint64 values; [Nat.iter k lcg x] is the state after [k] calls from [x]. *)
Theorem C24_lcg_period : forall x i j, 0 <= x < 2 ^ 64 ->
  (Nat.iter i lcg x = Nat.iter j lcg x <-> Z.of_nat i mod 2 ^ 64 = Z.of_nat j mod 2 ^ 64).
Proof. exact ModelUtil.lcg_period_lemma. Qed.
Print Assumptions C24_lcg_period.

Theorem C24_lcg_reaches_every_state : forall x y, 0 <= x < 2 ^ 64 -> 0 <= y < 2 ^ 64 ->
  exists k, Z.of_nat k < 2 ^ 64 /\ Nat.iter k lcg x = y.
Proof. exact ModelUtil.lcg_all_lemma. Qed.
Print Assumptions C24_lcg_reaches_every_state.

Theorem C24_next_random_every_value : forall x v r, 0 <= x < 2 ^ 64 -> 1 <= v < 2 ^ 63 -> 0 <= r < v ->
  exists k, Z.of_nat k < 2 ^ 64 /\ snd (next_random (Nat.iter k lcg x) v) = Ret r.
Proof. exact ModelUtil.next_random_every_lemma. Qed.
Print Assumptions C24_next_random_every_value.

(** For a power of two the i-th and j-th results agree exactly when i = j modulo that power. *)
Theorem C24_next_random_pow2_period : forall x e i j, 0 <= x < 2 ^ 64 -> (e < 63)%nat ->
  (snd (next_random (Nat.iter i lcg x) (2 ^ Z.of_nat e)) = snd (next_random (Nat.iter j lcg x) (2 ^ Z.of_nat e))
   <-> Z.of_nat i mod 2 ^ Z.of_nat e = Z.of_nat j mod 2 ^ Z.of_nat e).
Proof. exact ModelUtil.next_random_pow2_lemma. Qed.
Print Assumptions C24_next_random_pow2_period.

Example C24_case :
  map (fun k => snd (next_random (Nat.iter k lcg rand_init) 4)) [0%nat; 1%nat; 2%nat; 3%nat; 4%nat; 5%nat]
  = [Ret 0; Ret 3; Ret 2; Ret 1; Ret 0; Ret 3].
Proof. vm_compute. auto. Qed.

(** C25. [bounds] are the t+1 boundaries; [slices data bounds] the chunks. *)
Theorem C25_index_per_thread : forall t d, 1 <= t -> 0 <= d -> d + t <= 2 ^ 53 ->
  exists bounds, index_per_thread t d = Ret bounds /\
    length bounds = S (Z.to_nat t) /\
    nth 0 bounds 0 = 0 /\ nth (Z.to_nat t) bounds 0 = d /\
    (forall i, (i < Z.to_nat t)%nat ->
       d / t <= nth (S i) bounds 0 - nth i bounds 0 <= (d + t - 1) / t) /\
    (forall (A : Type) (data : list A), Z.of_nat (length data) = d ->
       length (slices data bounds) = Z.to_nat t /\ concat (slices data bounds) = data).
Proof. exact ModelUtil.index_per_thread_lemma. Qed.
Print Assumptions C25_index_per_thread.

Theorem C25_index_per_thread_edge : forall d,
  index_per_thread 0 d = Ret [d] /\ (forall t, t < 0 -> index_per_thread t d = Panic).
Proof. exact ModelUtil.index_per_thread_edge. Qed.
Print Assumptions C25_index_per_thread_edge.

Example C25_case : index_per_thread 4 10 = Ret [0; 2; 5; 8; 10] /\ index_per_thread 3 1 = Ret [0; 0; 1; 1].
Proof. vm_compute. auto. Qed.

(** C26. [writes] is any history of writes of whole rows through Slice. *)
Theorem C26_matrix_rows : forall (St : Type) (fn : St -> Z -> list f64 -> St * list f64) (st : St) r c,
  (forall st i l, length (snd (fn st i l)) = length l) -> 0 <= r -> 0 <= c ->
  let run := row_calls fn (Z.to_nat c) (Z.to_nat r) 0 st in
  exists m, mat_new r c fn st = Ret (fst run, m) /\ m_row m = r /\ m_col m = c /\
    (forall i, 0 <= i < r -> mat_slice m i = Ret (nth (Z.to_nat i) (snd run) [])) /\
    forall writes : list (Z * list f64),
      Forall (fun w => 0 <= fst w < r /\ Z.of_nat (length (snd w)) = c) writes ->
      let m' := fold_left (fun m w => mat_store m (fst w) (snd w)) writes m in
      m_row m' = r /\ m_col m' = c /\
      (forall i, 0 <= i < r -> exists l, mat_slice m' i = Ret l /\ Z.of_nat (length l) = c) /\
      (forall i, 1 <= c -> i < 0 \/ r <= i -> mat_slice m' i = Panic) /\
      (forall i row, 0 <= i < r -> Z.of_nat (length row) = c ->
         forall j, 0 <= j < r -> mat_slice (mat_store m' i row) j = if i =? j then Ret row else mat_slice m' j).
Proof. exact (@Matrix.matrix_lemma). Qed.
Print Assumptions C26_matrix_rows.

Definition shown (o : outcome (list f64)) := match o with Ret l => Some (map fshow l) | _ => None end.

Example C26_case :
  match mat_new 2 3 (fun n i l => (n + 1, repeat (f_of_Z (i + 1)) (length l))) 0 with
  | Ret (n, m) => (n, shown (mat_slice m 1), shown (mat_slice m 2), shown (mat_slice (mat_store m 1 (repeat fzero 3)) 0))
  | _ => (0, None, None, None)
  end = (2, Some (repeat (fshow (f_of_Z 2)) 3), None, Some (repeat (fshow (f_of_Z 1)) 3)).
Proof. vm_compute. reflexivity. Qed.
