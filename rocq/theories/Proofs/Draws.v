From Coq Require Import ZArith Lia Permutation List.
From Verif.Lib Require Import Go F64 ListFacts.
From Verif.Model Require Import ModelUtil.
From Verif.Spec Require Import Draws Training.
From Verif.Proofs Require Import ModelUtil.
Import ListNotations.
Local Open Scope Z_scope.

Lemma next_random_ret s v : 1 <= v < 2 ^ 63 -> next_random s v = (lcg s, Ret (lcg s mod v)).
Proof.
  intros Hv. unfold next_random. rewrite (Z.mod_small v) by (unfold W64; lia).
  destruct (Z.eqb_spec v 0); [lia|].
  pose proof (Z.mod_pos_bound (lcg s) v ltac:(lia)) as Hb. unfold int_of_u64.
  destruct (Z.ltb_spec (lcg s mod v) (2 ^ 63)); [reflexivity|lia].
Qed.

Lemma iter_shift k x : Nat.iter k lcg (lcg x) = Nat.iter (S k) lcg x.
Proof. induction k as [|k IH]; [reflexivity|]. change (lcg (Nat.iter k lcg (lcg x)) = lcg (Nat.iter (S k) lcg x)). now rewrite IH. Qed.

Lemma iter_add' j k x : Nat.iter (j + k) lcg x = Nat.iter j lcg (Nat.iter k lcg x).
Proof. induction j as [|j IH]; [reflexivity|]. change (lcg (Nat.iter (j + k) lcg x) = lcg (Nat.iter j lcg (Nat.iter k lcg x))). now rewrite IH. Qed.

Lemma results_map v : 1 <= v < 2 ^ 63 -> forall n x,
  results x v n = map (fun k => Ret (Nat.iter (S k) lcg x mod v)) (seq 0 n).
Proof.
  intros Hv. induction n as [|n IH]; intros x; [reflexivity|].
  cbn [results]. rewrite next_random_ret by exact Hv. rewrite IH. cbn [seq map]. f_equal.
  rewrite <- seq_shift, map_map. apply map_ext. intros k. now rewrite iter_shift.
Qed.

(** Residues: [n] consecutive states modulo 2^e, if [n] is 2^e. *)
Lemma states_mod e x n : (e <= 64)%nat -> 0 <= x < W64 -> Z.of_nat n = 2 ^ Z.of_nat e ->
  Permutation (map (fun k => Nat.iter k lcg x mod 2 ^ Z.of_nat e) (seq 0 n)) (map Z.of_nat (seq 0 n)).
Proof.
  intros He Hx Hn. remember (2 ^ Z.of_nat e) as M eqn:EM.
  assert (Hp : 0 < M) by (subst M; apply Z.pow_pos_nonneg; lia).
  assert (Hmod : forall k, Nat.iter k lcg x mod M = it 25214903917 11 k x mod M).
  { intros k. rewrite lcg_iter by exact Hx. symmetry. apply Znumtheory.Zmod_div_mod; [lia|reflexivity|].
    subst M. unfold W64. exists (2 ^ (64 - Z.of_nat e)). rewrite <- Z.pow_add_r by lia. f_equal; lia. }
  apply NoDup_Permutation_bis.
  - assert (G : forall m s, (s + m <= n)%nat -> NoDup (map (fun k => Nat.iter k lcg x mod M) (seq s m))).
    { induction m as [|m IH]; intros s Hs; cbn [seq map]; constructor.
      - intros Hin. apply in_map_iff in Hin. destruct Hin as (k & Ek & Hk). apply in_seq in Hk.
        rewrite !Hmod in Ek. rewrite EM in Ek. apply (it_eq 25214903917 11 eq_refl eq_refl) in Ek.
        rewrite <- EM, !Z.mod_small in Ek by lia. lia.
      - apply IH. lia. }
    apply G. lia.
  - rewrite !map_length. lia.
  - intros z Hz. apply in_map_iff in Hz. destruct Hz as (k & <- & Hk).
    pose proof (Z.mod_pos_bound (Nat.iter k lcg x) M Hp).
    apply in_map_iff. exists (Z.to_nat (Nat.iter k lcg x mod M)). split; [lia|]. apply in_seq. lia.
Qed.

Lemma filter_perm {A} (f : A -> bool) l l' : Permutation l l' -> Permutation (filter f l) (filter f l').
Proof.
  induction 1 as [|a l l' H IH|a b l|l1 l2 l3 H1 IH1 H2 IH2]; cbn [filter].
  - constructor.
  - destruct (f a); [constructor|]; exact IH.
  - destruct (f a), (f b); try reflexivity. constructor.
  - etransitivity; eassumption.
Qed.
Lemma times_perm {A} (f : A -> bool) l l' : Permutation l l' -> times f l = times f l'.
Proof. intros H. unfold times. f_equal. apply Permutation_length, filter_perm, H. Qed.
Lemma times_app {A} (f : A -> bool) l l' : times f (l ++ l') = times f l + times f l'.
Proof. unfold times. rewrite filter_app, app_length. lia. Qed.
Lemma times_map {A B} (g : A -> B) (f : B -> bool) l : times f (map g l) = times (fun a => f (g a)) l.
Proof. unfold times. f_equal. induction l as [|a l IH]; [reflexivity|]. cbn [map filter]. destruct (f (g a)); cbn [length]; now rewrite IH. Qed.

(** How many numbers below [n] leave remainder [r]. *)
Lemma count_mod v r : 0 <= r < v -> forall n,
  times (fun k => Z.of_nat k mod v =? r) (seq 0 n) = (Z.of_nat n + v - 1 - r) / v.
Proof.
  intros Hr. induction n as [|n IH].
  - symmetry. apply Z.div_small. lia.
  - rewrite seq_S, times_app, IH. cbn [plus].
    pose proof (Z.div_mod (Z.of_nat n) v ltac:(lia)) as D.
    pose proof (Z.mod_pos_bound (Z.of_nat n) v ltac:(lia)) as B.
    set (q := Z.of_nat n / v) in *. set (p := Z.of_nat n mod v) in *.
    assert (E1 : (Z.of_nat n + v - 1 - r) / v = if p <=? r then q else q + 1).
    { symmetry. destruct (Z.leb_spec p r).
      - apply (Z.div_unique _ _ _ (p + v - 1 - r)); lia.
      - apply (Z.div_unique _ _ _ (p - 1 - r)); lia. }
    assert (E2 : (Z.of_nat (S n) + v - 1 - r) / v = if p <? r then q else q + 1).
    { symmetry. destruct (Z.ltb_spec p r).
      - apply (Z.div_unique _ _ _ (p + v - r)); lia.
      - apply (Z.div_unique _ _ _ (p - r)); lia. }
    rewrite E1, E2. unfold times. cbn [filter]. fold p.
    destruct (Z.eqb_spec p r); cbn [length]; destruct (Z.leb_spec p r), (Z.ltb_spec p r); lia.
Qed.

Lemma uniform_lemma x v r n : 0 <= x < 2 ^ 64 -> 1 <= v < 2 ^ 63 -> 0 <= r < v -> Z.of_nat n = 2 ^ 64 ->
  times (returned_value r) (results x v n) = (2 ^ 64 + v - 1 - r) / v.
Proof.
  intros Hx Hv Hr Hn. rewrite results_map by exact Hv. rewrite times_map. cbn [returned_value].
  rewrite <- Hn, <- (count_mod v r Hr n).
  pose proof (states_mod 64 (lcg x) n (le_n _) (lcg_range x) Hn) as P.
  rewrite <- (times_map Z.of_nat (fun z => z mod v =? r)). rewrite <- (times_perm (fun z => z mod v =? r) _ _ P).
  rewrite times_map. unfold times. do 2 f_equal. apply filter_ext. intros k. rewrite iter_shift.
  rewrite (Z.mod_small (Nat.iter (S k) lcg x) (2 ^ Z.of_nat 64)); [reflexivity|].
  exact (lcg_range (Nat.iter k lcg x)).
Qed.

Lemma uniform_bounds v r : 0 <= r < v -> 2 ^ 64 / v <= (2 ^ 64 + v - 1 - r) / v <= 2 ^ 64 / v + 1.
Proof.
  intros Hr. split.
  - apply Z.div_le_mono; lia.
  - rewrite <- (Z.div_add _ 1) by lia. apply Z.div_le_mono; lia.
Qed.

Lemma round_robin_lemma x e n : 0 <= x < 2 ^ 64 -> (e < 63)%nat -> Z.of_nat n = 2 ^ Z.of_nat e ->
  Permutation (results x (2 ^ Z.of_nat e) n) (map (fun k => Ret (Z.of_nat k)) (seq 0 n)).
Proof.
  intros Hx He Hn.
  assert (Hp : 0 < 2 ^ Z.of_nat e) by (apply Z.pow_pos_nonneg; lia).
  assert (Hp' : 2 ^ Z.of_nat e < 2 ^ 63) by (apply Z.pow_lt_mono_r; lia).
  rewrite results_map by lia.
  pose proof (states_mod e (lcg x) n ltac:(lia) (lcg_range x) Hn) as P.
  apply (Permutation_map Ret) in P. rewrite !map_map in P.
  rewrite <- P. erewrite map_ext; [reflexivity|]. intros k. cbv beta. now rewrite iter_shift.
Qed.

Lemma nth_results x v n i : 1 <= v < 2 ^ 63 -> (i < n)%nat ->
  nth_error (results x v n) i = Some (Ret (Nat.iter (S i) lcg x mod v)).
Proof.
  intros Hv Hi. rewrite results_map by exact Hv.
  rewrite nth_error_map. rewrite (nth_error_nth' _ O) by (rewrite seq_length; exact Hi). rewrite seq_nth by exact Hi. reflexivity.
Qed.

Lemma residues_lemma x v e n i j a b : 0 <= x < 2 ^ 64 -> 1 <= v < 2 ^ 63 -> (2 ^ Z.of_nat e | v) ->
  nth_error (results x v n) i = Some (Ret a) -> nth_error (results x v n) j = Some (Ret b) ->
  (a mod 2 ^ Z.of_nat e = b mod 2 ^ Z.of_nat e <-> Z.of_nat i mod 2 ^ Z.of_nat e = Z.of_nat j mod 2 ^ Z.of_nat e).
Proof.
  intros Hx Hv Hd Ha Hb.
  assert (Hp : 0 < 2 ^ Z.of_nat e) by (apply Z.pow_pos_nonneg; lia).
  assert (Hle : 2 ^ Z.of_nat e < 2 ^ 63) by (apply Z.divide_pos_le in Hd; lia).
  assert (He : (e < 63)%nat).
  { apply Z.pow_lt_mono_r_iff in Hle; lia. }
  assert (L : forall k, (k < n)%nat \/ nth_error (results x v n) k = None).
  { intros k. destruct (Nat.lt_ge_cases k n); [auto|right]. rewrite results_map by exact Hv. apply nth_error_None.
    now rewrite map_length, seq_length. }
  destruct (L i) as [Li|Li]; [|congruence]. destruct (L j) as [Lj|Lj]; [|congruence].
  rewrite nth_results in Ha, Hb by assumption. assert (Ea : a = Nat.iter (S i) lcg x mod v) by congruence. assert (Eb : b = Nat.iter (S j) lcg x mod v) by congruence. subst a b.
  assert (M : forall k, (Nat.iter (S k) lcg x mod v) mod 2 ^ Z.of_nat e = it 25214903917 11 (S k) x mod 2 ^ Z.of_nat e).
  { intros k. rewrite <- (Znumtheory.Zmod_div_mod (2 ^ Z.of_nat e) v) by (auto; lia).
    rewrite lcg_iter by exact Hx. symmetry. apply Znumtheory.Zmod_div_mod; [lia|reflexivity|].
    unfold W64. exists (2 ^ (64 - Z.of_nat e)). rewrite <- Z.pow_add_r by lia. f_equal; lia. }
  rewrite !M. rewrite (it_eq 25214903917 11 eq_refl eq_refl).
  assert (Sh : forall k, Z.of_nat (S k) = Z.of_nat k + 1) by (intros; lia). rewrite !Sh.
  split; intros E.
  - replace (Z.of_nat i) with (Z.of_nat i + 1 - 1) by lia. replace (Z.of_nat j) with (Z.of_nat j + 1 - 1) by lia.
    rewrite Zminus_mod, E, <- Zminus_mod. reflexivity.
  - rewrite Zplus_mod, E, <- Zplus_mod. reflexivity.
Qed.

(** ** Negative samples *)
Lemma seq_shift_n a : forall n b, map (fun k => (a + k)%nat) (seq b n) = seq (a + b) n.
Proof. induction n as [|n IH]; intros b; [reflexivity|]. cbn [seq map]. f_equal. rewrite IH. f_equal. lia. Qed.

Lemma draw_shift next v a k : draw next v (a + k) = draw (Nat.iter a lcg next) v k.
Proof. unfold draw. do 2 f_equal. rewrite <- iter_add'. f_equal. lia. Qed.

Lemma draws_once next e n : 0 <= next < 2 ^ 64 -> (e < 63)%nat -> Z.of_nat n = 2 ^ Z.of_nat e ->
  Permutation (map (draw next (Z.of_nat n)) (seq 0 n)) (seq 0 n).
Proof.
  intros Hx He Hn. unfold draw. rewrite Hn.
  pose proof (states_mod e (lcg next) n ltac:(lia) (lcg_range next) Hn) as P.
  apply (Permutation_map Z.to_nat) in P. rewrite !map_map in P.
  rewrite (map_ext _ (fun k => Z.to_nat (Nat.iter k lcg (lcg next) mod 2 ^ Z.of_nat e))) by (intros k; now rewrite iter_shift).
  rewrite P. erewrite map_ext; [rewrite map_id; reflexivity|]. intros k. cbv beta. apply Nat2Z.id.
Qed.

Lemma draws_times e n r : (e < 63)%nat -> Z.of_nat n = 2 ^ Z.of_nat e -> (r < n)%nat -> forall m next, 0 <= next < 2 ^ 64 ->
  times (Nat.eqb r) (map (draw next (Z.of_nat n)) (seq 0 (m * n))) = Z.of_nat m.
Proof.
  intros He Hn Hr. induction m as [|m IH]; intros next Hx; [reflexivity|].
  cbn [Nat.mul]. rewrite seq_app, map_app, times_app.
  rewrite (times_perm _ _ _ (draws_once next e n Hx He Hn)).
  assert (T : times (Nat.eqb r) (seq 0 n) = 1).
  { clear - Hr. unfold times. 
    replace n with (r + (1 + (n - r - 1)))%nat by lia. rewrite !seq_app, !filter_app, !app_length.
    assert (Z0 : forall a k, (r < a \/ a + k <= r)%nat -> filter (Nat.eqb r) (seq a k) = []).
    { intros a k. revert a. induction k as [|k IH]; intros a H; [reflexivity|]. cbn [seq filter].
      destruct (Nat.eqb_spec r a); [lia|]. apply IH. lia. }
    rewrite (Z0 O r), (Z0 (0 + r + 1)%nat) by lia. cbn [seq filter plus]. rewrite Nat.eqb_refl. reflexivity. }
  rewrite T.
  replace (map (draw next (Z.of_nat n)) (seq (0 + n) (m * n)))
    with (map (draw (Nat.iter n lcg next) (Z.of_nat n)) (seq 0 (m * n))).
  - rewrite IH; [lia|]. destruct n as [|n']; [lia|]. exact (lcg_range (Nat.iter n' lcg next)).
  - rewrite <- (Nat.add_comm n 0), <- (seq_shift_n n). rewrite map_map. apply map_ext. intros k. now rewrite draw_shift.
Qed.

Lemma iter_range a next : 0 <= next < 2 ^ 64 -> 0 <= Nat.iter a lcg next < 2 ^ 64.
Proof. intros H. destruct a as [|a]; [exact H|]. exact (lcg_range (Nat.iter a lcg next)). Qed.

Lemma times_zero {A} (f : A -> bool) l : Forall (fun a => f a = false) l -> times f l = 0.
Proof. unfold times. induction 1 as [|a l H _ IH]; [reflexivity|]. cbn [filter]. rewrite H. exact IH. Qed.
Lemma times_filter {A} (f g : A -> bool) l : times f (filter g l) = times (fun a => f a && g a) l.
Proof. unfold times. f_equal. induction l as [|a l IH]; [reflexivity|]. cbn [filter]. destruct (g a) eqn:Eg; cbn [filter]; destruct (f a) eqn:Ef; cbn [andb length]; now rewrite ?IH. Qed.
Lemma times_ext {A} (f g : A -> bool) l : (forall a, f a = g a) -> times f l = times g l.
Proof. intros H. unfold times. now rewrite (filter_ext _ _ H). Qed.

Lemma ns_steps_times e V id r m next : (e < 63)%nat -> Z.of_nat V = 2 ^ Z.of_nat e -> (r < V)%nat -> 0 <= next < 2 ^ 64 ->
  times (fun s => Nat.eqb (fst s) r && (snd s =? 0)) (ns_steps id next (Z.of_nat V) (m * V)) = if Nat.eqb r id then 0 else Z.of_nat m.
Proof.
  intros He HV Hr Hn. unfold ns_steps.
  match goal with |- times ?f (?a :: ?l) = _ => change (a :: l) with ([a] ++ l) end.
  rewrite times_app. rewrite (times_zero _ [_]) by (constructor; [cbn; now rewrite Bool.andb_false_r|constructor]).
  rewrite times_map, times_filter. cbn [fst snd].
  destruct (Nat.eqb_spec r id) as [->|Hid].
  - apply times_zero. apply Forall_forall. intros a _. destruct (Nat.eqb_spec a id); cbn; reflexivity.
  - rewrite (times_ext _ (Nat.eqb r)).
    + rewrite (draws_times e V r He HV Hr m next Hn). reflexivity.
    + intros a. rewrite (Nat.eqb_sym r a). destruct (Nat.eqb_spec a r) as [->|]; cbn [andb]; [|reflexivity].
      destruct (Nat.eqb_spec r id); [contradiction|reflexivity].
Qed.

From Verif.Spec Require Import Cells.
Lemma lex_steps_times e V r m val w : (e < 63)%nat -> Z.of_nat V = 2 ^ Z.of_nat e -> (r < V)%nat -> forall us next, 0 <= next < 2 ^ 64 ->
  Forall (fun u => (u < V)%nat) us ->
  times (fun s => Nat.eqb (snd (fst s)) (r + V)) (lex_steps val V (m * V) w us next) = Z.of_nat (length us) * Z.of_nat m.
Proof.
  intros He HV Hr. induction us as [|u us IH]; intros next Hn HF; [reflexivity|].
  inversion HF as [|? ? Hu HF']; subst. cbn [lex_steps].
  match goal with |- times ?f (?a :: ?l) = _ => change (a :: l) with ([a] ++ l) end.
  rewrite !times_app. rewrite IH by (auto using iter_range).
  rewrite (times_zero _ [_]) by (constructor; [cbn; apply Nat.eqb_neq; lia|constructor]).
  rewrite times_map. cbn [fst snd].
  rewrite (times_ext _ (Nat.eqb r)).
  - rewrite (draws_times e V r He HV Hr m next Hn). cbn [length]. lia.
  - intros a. destruct (Nat.eqb_spec (a + V) (r + V)), (Nat.eqb_spec r a); try reflexivity; lia.
Qed.
