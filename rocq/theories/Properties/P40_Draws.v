(** * C103: how the random numbers of training are distributed *)
From Coq Require Import Lia Permutation.
From Verif.Lib Require Import Go F64.
From Verif.Model Require Import ModelUtil Matrix Word2vec Lexvec Encode.
From Verif.Spec Require Import Draws Rows Training Cells.
From Verif.Proofs Require Draws Word2vec Lexvec.
Local Open Scope Z_scope.

(** C103. [results x v n]: what n successive calls NextRandom(v) return, from the state [x]. Over a whole
    period every value comes as often as the others, up to one. *)
Theorem C103_whole_period : forall x v r n, 0 <= x < 2 ^ 64 -> 1 <= v < 2 ^ 63 -> 0 <= r < v -> Z.of_nat n = 2 ^ 64 ->
  2 ^ 64 / v <= times (returned_value r) (results x v n) <= 2 ^ 64 / v + 1.
Proof. intros. rewrite Draws.uniform_lemma by assumption. apply Draws.uniform_bounds; assumption. Qed.
Print Assumptions C103_whole_period.

(** The exact number: one more for the smallest values. *)
Theorem C103_whole_period_exact : forall x v r n, 0 <= x < 2 ^ 64 -> 1 <= v < 2 ^ 63 -> 0 <= r < v -> Z.of_nat n = 2 ^ 64 ->
  times (returned_value r) (results x v n) = if r <? 2 ^ 64 mod v then 2 ^ 64 / v + 1 else 2 ^ 64 / v.
Proof.
  intros x v r n Hx Hv Hr Hn. rewrite Draws.uniform_lemma by assumption.
  pose proof (Z.div_mod (2 ^ 64) v ltac:(lia)). pose proof (Z.mod_pos_bound (2 ^ 64) v ltac:(lia)).
  set (q := 2 ^ 64 / v) in *. set (p := 2 ^ 64 mod v) in *. symmetry.
  destruct (Z.ltb_spec r p).
  - apply (Z.div_unique _ _ _ (p - 1 - r)); lia.
  - apply (Z.div_unique _ _ _ (p + v - 1 - r)); lia.
Qed.
Print Assumptions C103_whole_period_exact.

(** If [v] is a power of two, any [v] successive calls return every value exactly once. *)
Theorem C103_round_robin : forall x e n, 0 <= x < 2 ^ 64 -> (e < 63)%nat -> Z.of_nat n = 2 ^ Z.of_nat e ->
  Permutation (results x (2 ^ Z.of_nat e) n) (map (fun k => Ret (Z.of_nat k)) (seq 0 n)).
Proof. exact Draws.round_robin_lemma. Qed.
Print Assumptions C103_round_robin.

(** If 2^e divides [v], the results modulo 2^e run through a cycle of length 2^e; with even [v] they are
    alternately even and odd. *)
Theorem C103_low_bits : forall x v e n i j a b, 0 <= x < 2 ^ 64 -> 1 <= v < 2 ^ 63 -> (2 ^ Z.of_nat e | v) ->
  nth_error (results x v n) i = Some (Ret a) -> nth_error (results x v n) j = Some (Ret b) ->
  (a mod 2 ^ Z.of_nat e = b mod 2 ^ Z.of_nat e <-> Z.of_nat i mod 2 ^ Z.of_nat e = Z.of_nat j mod 2 ^ Z.of_nat e).
Proof. exact Draws.residues_lemma. Qed.
Print Assumptions C103_low_bits.

Theorem C103_alternate : forall x v n i a b, 0 <= x < 2 ^ 64 -> 1 <= v < 2 ^ 63 -> Z.even v = true ->
  nth_error (results x v n) i = Some (Ret a) -> nth_error (results x v n) (S i) = Some (Ret b) -> Z.even b = negb (Z.even a).
Proof.
  intros x v n i a b Hx Hv He Ha Hb. apply Z.even_spec in He. destruct He as [w Hw].
  assert (D : (2 ^ Z.of_nat 1 | v)) by (exists w; change (2 ^ Z.of_nat 1) with 2; lia).
  pose proof (C103_low_bits x v 1 n i (S i) a b Hx Hv D Ha Hb) as R. change (2 ^ Z.of_nat 1) with 2 in R.
  rewrite !Zeven_mod.
  pose proof (Z.mod_pos_bound a 2). pose proof (Z.mod_pos_bound b 2).
  assert (N : a mod 2 <> b mod 2).
  { intros E. apply R in E. rewrite Nat2Z.inj_succ in E. pose proof (Z.div_mod (Z.of_nat i) 2). pose proof (Z.div_mod (Z.succ (Z.of_nat i)) 2). lia. }
  destruct (Zeq_bool (a mod 2) 0) eqn:E1, (Zeq_bool (b mod 2) 0) eqn:E2; try reflexivity; exfalso.
  - apply Zeq_bool_eq in E1. apply Zeq_bool_eq in E2. lia.
  - apply Zeq_bool_neq in E1. apply Zeq_bool_neq in E2. lia.
Qed.
Print Assumptions C103_alternate.

(** The consequence for word2vec: with 2^e words and NegativeSampleSize a multiple m of their number, every
    call of the optimizer uses every other word exactly m times as a negative sample. *)
Theorem C103_word2vec : forall sig e m lr ctx id next rows tmp dim,
  (e < 63)%nat -> Z.of_nat (length rows) = 2 ^ Z.of_nat e -> 0 <= next < 2 ^ 64 ->
  all_len dim rows -> (id < length rows)%nat -> length ctx = dim -> length tmp = dim ->
  exists negatives,
    (forall r, (r < length rows)%nat -> times (fun s => Nat.eqb (fst s) r) negatives = if Nat.eqb r id then 0 else Z.of_nat m) /\
    Forall (fun s => snd s = 0) negatives /\
    ns_optim sig (Z.of_nat (m * length rows)) lr ctx (Z.of_nat id) next (of_rows dim rows) tmp =
    obind (ofold (ns_row_step sig lr ctx) ((id, 1) :: negatives) (rows, tmp))
      (fun '(rows', tmp') => Ret (Nat.iter (m * length rows) lcg next, of_rows dim rows', tmp')).
Proof.
  intros sig e m lr ctx id next rows tmp dim He HV Hn Hl Hid Hc Ht.
  assert (Hlt : 2 ^ Z.of_nat e < 2 ^ 63) by (apply Z.pow_lt_mono_r; lia).
  exists (tl (ns_steps id next (Z.of_nat (length rows)) (m * length rows))). split; [|split].
  - intros r Hr. rewrite <- (Draws.ns_steps_times e (length rows) id r m next) by assumption.
    unfold ns_steps at 2. match goal with |- _ = times ?f (?a :: ?l) => change (a :: l) with ([a] ++ l) end.
    rewrite Draws.times_app. rewrite (Draws.times_zero _ [_]) by (constructor; [cbn; now rewrite Bool.andb_false_r|constructor]).
    cbn [tl ns_steps]. rewrite !Draws.times_map. cbn [fst snd]. rewrite Z.add_0_l. apply Draws.times_ext.
    intros a. change (0 =? 0) with true. now rewrite Bool.andb_true_r.
  - cbn [ns_steps tl]. apply Forall_forall. intros s Hs. apply in_map_iff in Hs. destruct Hs as (q & <- & _). reflexivity.
  - rewrite (Word2vec.ns_optim_lemma sig (m * length rows) lr ctx id next rows tmp dim) by (assumption || lia). reflexivity.
Qed.
Print Assumptions C103_word2vec.

(** The consequence for LexVec: one training step, with its [ctx] context positions, updates the context
    row of every word exactly m times per context position. *)
Theorem C103_lexvec : forall e m dim lr items V doc pos window next rows,
  (e < 63)%nat -> Z.of_nat V = 2 ^ Z.of_nat e -> 0 <= next < 2 ^ 64 -> Forall (fun id => (id < V)%nat) doc -> (pos < length doc)%nat ->
  1 <= window < 2 ^ 63 -> all_len dim rows -> length rows = (2 * V)%nat ->
  let ctx := context (Z.of_nat pos) (window - lcg next mod window) (length doc) in
  exists steps,
    (forall r, (r < V)%nat -> times (fun s => Nat.eqb (snd (fst s)) (r + V)) steps = Z.of_nat (length ctx) * Z.of_nat m) /\
    lex_train_one (Z.of_nat dim) lr items (Z.of_nat V) window (Z.of_nat (m * V)) (map Z.of_nat doc) (Z.of_nat pos) (next, of_rows dim rows) =
    Ret (Nat.iter (1 + length ctx * (m * V)) lcg next, of_rows dim (fold_left (lex_step lr) steps rows)).
Proof.
  intros e m dim lr items V doc pos window next rows He HV Hn Hd Hp Hw Hl Hr ctx.
  assert (Hlt : 2 ^ Z.of_nat e < 2 ^ 63) by (apply Z.pow_lt_mono_r; lia).
  assert (Hpos : 0 < 2 ^ Z.of_nat e) by (apply Z.pow_pos_nonneg; lia).
  eexists. split; [|apply Lexvec.train_one_lemma; (assumption || lia)].
  intros r Hrr. rewrite (Draws.lex_steps_times e V r m) with (us := map _ _); auto.
  - now rewrite map_length.
  - exact (Draws.iter_range 1 next Hn).
  - apply Forall_forall. intros u Hu. apply in_map_iff in Hu. destruct Hu as (c & <- & _).
    rewrite Forall_forall in Hd. destruct (Nat.lt_ge_cases (Z.to_nat c) (length doc)) as [H|H].
    + apply Hd, nth_In, H.
    + rewrite nth_overflow by exact H. lia.
Qed.
Print Assumptions C103_lexvec.

(** Four words from the initial state: one round is 0, 3, 2, 1. *)
Example C103_case :
  results rand_init 4 8 = map (fun z => Ret z) [0; 3; 2; 1; 0; 3; 2; 1] /\
  results rand_init 6 6 = map (fun z => Ret z) [0; 1; 2; 5; 4; 1] /\
  ns_steps 2 rand_init 4 4 = [(2%nat, 1); (0%nat, 0); (3%nat, 0); (1%nat, 0)] /\
  (exists n, Z.of_nat n = 2 ^ 64).
Proof. split; [vm_compute; reflexivity|]. split; [vm_compute; reflexivity|]. split; [vm_compute; reflexivity|]. exists (Z.to_nat (2 ^ 64)). apply Z2Nat.id. lia. Qed.
