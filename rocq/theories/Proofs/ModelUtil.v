From Coq Require Import Reals Lia Znumtheory Permutation.
From Flocq Require Import Core BinarySingleNaN.
From Verif.Lib Require Import Go F64 F64Facts ListFacts.
From Verif.Model Require Import ModelUtil.
From Verif.Spec Require Import Slices.
Local Open Scope Z_scope.

Lemma W64_pos : 0 < W64. Proof. reflexivity. Qed.
Lemma lcg_range s : 0 <= lcg s < W64.
Proof. apply Z.mod_pos_bound. reflexivity. Qed.

(** ** NextRandom *)
Lemma next_random_range_lemma s v : 1 <= v < 2 ^ 63 ->
  exists r, next_random s v = (lcg s, Ret r) /\ 0 <= r < v.
Proof.
  intros Hv. unfold next_random. rewrite (Z.mod_small v) by (unfold W64; lia).
  destruct (Z.eqb_spec v 0); [lia|].
  pose proof (Z.mod_pos_bound (lcg s) v ltac:(lia)) as Hb.
  exists (lcg s mod v). split; [|lia]. unfold int_of_u64.
  destruct (Z.ltb_spec (lcg s mod v) (2 ^ 63)); [reflexivity|lia].
Qed.

Lemma next_random_zero_lemma s : snd (next_random s 0) = Panic.
Proof. reflexivity. Qed.

(** ** Full period *)
Section LCG.
  Variables (a c : Z).
  Hypothesis Ha : a mod 4 = 1.
  Hypothesis Hc : Z.odd c = true.

  (** Unreduced iteration. *)
  Fixpoint it (k : nat) (x : Z) : Z := match k with O => x | S k' => it k' x * a + c end.
  Fixpoint geo (k : nat) : Z := match k with O => 0 | S k' => geo k' * a + 1 end.

  Lemma it_geo k x : it k x - x = geo k * ((a - 1) * x + c).
  Proof. induction k as [|k IH]; simpl; [ring|]. 
    replace (it k x * a + c - x) with ((it k x - x) * a + (a - 1) * x + c) by ring. rewrite IH. ring. Qed.

  Lemma geo_pow k : geo k * (a - 1) = a ^ Z.of_nat k - 1.
  Proof.
    induction k as [|k IH]; [reflexivity|].
    rewrite Nat2Z.inj_succ, Z.pow_succ_r by lia. cbn [geo].
    replace ((geo k * a + 1) * (a - 1)) with (geo k * (a - 1) * a + (a - 1)) by ring. rewrite IH. ring.
  Qed.

  Lemma geo_add j k : geo (j + k) = geo j + a ^ Z.of_nat j * geo k.
  Proof.
    induction k as [|k IH].
    - rewrite Nat.add_0_r. simpl. ring.
    - rewrite Nat.add_succ_r. cbn [geo]. rewrite IH.
      replace (a ^ Z.of_nat j) with (geo j * (a - 1) + 1) by (rewrite geo_pow; ring). ring.
  Qed.

  Lemma pow_mod4 k : (a ^ Z.of_nat k) mod 4 = 1.
  Proof.
    induction k as [|k IH]; [reflexivity|].
    rewrite Nat2Z.inj_succ, Z.pow_succ_r, Z.mul_mod, Ha, IH by lia. reflexivity.
  Qed.

  Lemma geo_odd k : geo k mod 2 = Z.of_nat k mod 2.
  Proof.
    induction k as [|k IH]; [reflexivity|]. cbn [geo].
    assert (Ha2 : a mod 2 = 1) by (pose proof (Z.div_mod a 4); pose proof (Z.div_mod a 2); pose proof (Z.mod_pos_bound a 2); lia).
    rewrite Nat2Z.inj_succ. unfold Z.succ.
    rewrite Z.add_mod, Z.mul_mod, Ha2, IH by lia. rewrite Z.mul_1_r, Z.mod_mod by lia.
    rewrite Z.add_mod by lia. rewrite (Z.add_mod (Z.of_nat k)) by lia. rewrite Z.mod_mod by lia. reflexivity.
  Qed.

  Lemma geo_div e : forall k, (2 ^ Z.of_nat e | geo k) <-> (2 ^ Z.of_nat e | Z.of_nat k).
  Proof.
    induction e as [|e IH]; intros k.
    - change (2 ^ Z.of_nat 0) with 1. split; intros; apply Z.divide_1_l.
    - rewrite Nat2Z.inj_succ, Z.pow_succ_r by lia.
      assert (Hev : (2 | geo k) <-> (2 | Z.of_nat k)).
      { pose proof (geo_odd k). split; intros Hd; apply Z.mod_divide; try lia; apply Z.mod_divide in Hd; lia. }
      destruct (Nat.even k) eqn:Ek.
      + apply Nat.even_spec in Ek. destruct Ek as [j ->].
        replace (2 * j)%nat with (j + j)%nat by lia. rewrite geo_add.
        pose proof (pow_mod4 j) as Hp. set (p := a ^ Z.of_nat j) in *.
        assert (Hq : exists q, 1 + p = 2 * q /\ q mod 2 = 1).
        { exists ((1 + p) / 2). pose proof (Z.div_mod p 4). pose proof (Z.div_mod (1 + p) 2).
          pose proof (Z.mod_pos_bound (1 + p) 2). pose proof (Z.div_mod ((1 + p) / 2) 2). 
          pose proof (Z.mod_pos_bound ((1 + p) / 2) 2). lia. }
        destruct Hq as (q & Hq & Hodd).
        replace (geo j + p * geo j) with (2 * (q * geo j)).
        2:{ replace (2 * (q * geo j)) with ((2 * q) * geo j) by ring. rewrite <- Hq. ring. }
        rewrite Nat2Z.inj_add. replace (Z.of_nat j + Z.of_nat j) with (2 * Z.of_nat j) by lia.
        assert (Hcan : forall x y, (2 * x | 2 * y) <-> (x | y)).
        { intros x y. split; intros [z Hz]; exists z; lia. }
        rewrite !Hcan. rewrite <- IH. split.
        * intros Hd. apply (Gauss _ q); auto.
          (* rel_prime 2^e q *)
          apply rel_prime_sym. apply Zpow_facts.rel_prime_Zpower_r; [lia|].
          apply rel_prime_sym. apply prime_rel_prime; [apply prime_2|].
          intros Hd2. apply Z.mod_divide in Hd2; lia.
        * intros [z ->]. exists (q * z). ring.
      + assert (Hn : ~ (2 | Z.of_nat k)).
        { intros Hd. destruct Hd as [z Hz]. assert (Nat.even k = true); [|congruence].
          apply Nat.even_spec. exists (Z.to_nat z). lia. }
        split; intros Hd; exfalso.
        * apply Hn, Hev. destruct Hd as [z Hz]. exists (z * 2 ^ Z.of_nat e). lia.
        * apply Hn. destruct Hd as [z Hz]. exists (z * 2 ^ Z.of_nat e). lia.
  Qed.

  Lemma it_fix e k x : (2 ^ Z.of_nat e | it k x - x) <-> (2 ^ Z.of_nat e | Z.of_nat k).
  Proof.
    rewrite it_geo, <- (geo_div e k).
    assert (Hodd : ~ (2 | (a - 1) * x + c)).
    { intros [z Hz]. apply Zodd_bool_iff in Hc. apply Zodd_ex in Hc. destruct Hc as [w Hw].
      pose proof (Z.div_mod a 4). 
      assert (Ea : a - 1 = 4 * (a / 4)) by lia. rewrite Ea in Hz.
      assert (4 * (a / 4) * x = 2 * (2 * (a / 4) * x)) by ring. lia. }
    split.
    - intros Hd. apply (Gauss _ ((a - 1) * x + c)); [rewrite Z.mul_comm; exact Hd|].
      apply rel_prime_sym. apply Zpow_facts.rel_prime_Zpower_r; [lia|].
      apply rel_prime_sym. apply prime_rel_prime; [apply prime_2|exact Hodd].
    - intros [z ->]. exists (z * ((a - 1) * x + c)). ring.
  Qed.

  Lemma it_add j k x : it (j + k) x = it j (it k x).
  Proof. induction j as [|j IH]; simpl; auto. rewrite IH; auto. Qed.

  (** Equality of two states of an orbit modulo 2^e. *)
  Lemma it_eq e i j x :
    it i x mod 2 ^ Z.of_nat e = it j x mod 2 ^ Z.of_nat e <->
    Z.of_nat i mod 2 ^ Z.of_nat e = Z.of_nat j mod 2 ^ Z.of_nat e.
  Proof.
    assert (Hp : 0 < 2 ^ Z.of_nat e) by (apply Z.pow_pos_nonneg; lia).
    assert (G : forall p q, p mod 2 ^ Z.of_nat e = q mod 2 ^ Z.of_nat e <-> (2 ^ Z.of_nat e | p - q)).
    { intros p q. split.
      - intros H. apply Z.mod_divide; [lia|]. rewrite Zminus_mod, H, Z.sub_diag. apply Z.mod_0_l; lia.
      - intros [z Hz]. replace p with (q + z * 2 ^ Z.of_nat e) by lia. apply Z.mod_add; lia. }
    rewrite !G.
    destruct (Nat.le_ge_cases i j) as [H|H].
    - replace j with ((j - i) + i)%nat by lia. rewrite it_add.
      rewrite <- Z.divide_opp_r. replace (- (it i x - it (j - i) (it i x))) with (it (j - i) (it i x) - it i x) by ring.
      rewrite it_fix. rewrite <- (Z.divide_opp_r _ (Z.of_nat i - _)).
      replace (- (Z.of_nat i - Z.of_nat (j - i + i))) with (Z.of_nat (j - i)) by lia. tauto.
    - replace i with ((i - j) + j)%nat by lia. rewrite it_add, it_fix.
      replace (Z.of_nat (i - j + j) - Z.of_nat j) with (Z.of_nat (i - j)) by lia. tauto.
  Qed.

  (** Every residue is reached. *)
  Lemma it_surj e x y : 0 <= y < 2 ^ Z.of_nat e ->
    exists k, 0 <= Z.of_nat k < 2 ^ Z.of_nat e /\ it k x mod 2 ^ Z.of_nat e = y.
  Proof.
    intros Hy.
    assert (Hp : 0 < 2 ^ Z.of_nat e) by (apply Z.pow_pos_nonneg; lia).
    remember (2 ^ Z.of_nat e) as M. set (N := Z.to_nat M).
    set (L := map (fun k => it k x mod M) (seq 0 N)).
    set (A := map Z.of_nat (seq 0 N)).
    assert (HN : NoDup L).
    { unfold L.
      assert (G : forall n s, (s + n <= N)%nat -> NoDup (map (fun k => it k x mod M) (seq s n))).
      { induction n as [|n IH]; intros s Hs; simpl; constructor.
        - intros Hin. apply in_map_iff in Hin. destruct Hin as (k & Ek & Hk). apply in_seq in Hk.
          rewrite HeqM in Ek. apply it_eq in Ek. rewrite <- HeqM in Ek.
          rewrite !Z.mod_small in Ek by (unfold N in *; lia). lia.
        - apply IH. lia. }
      apply G. lia. }
    assert (HI : incl L A).
    { intros z Hz. apply in_map_iff in Hz. destruct Hz as (k & <- & Hk).
      pose proof (Z.mod_pos_bound (it k x) M Hp). unfold A.
      apply in_map_iff. exists (Z.to_nat (it k x mod M)). split; [lia|]. apply in_seq. unfold N. lia. }
    assert (HA : incl A L).
    { apply NoDup_length_incl; auto. unfold L, A. rewrite !map_length. lia. }
    assert (Hy' : In y A). { unfold A. apply in_map_iff. exists (Z.to_nat y). split; [lia|]. apply in_seq. unfold N; lia. }
    apply HA in Hy'. unfold L in Hy'. apply in_map_iff in Hy'. destruct Hy' as (k & Ek & Hk).
    apply in_seq in Hk. exists k. split; [unfold N in *; lia|exact Ek].
  Qed.
End LCG.

(** The generator state after [k] calls. *)
Lemma lcg_iter k x : 0 <= x < W64 -> Nat.iter k lcg x = it 25214903917 11 k x mod W64.
Proof.
  intros Hx. induction k as [|k IH].
  - simpl. rewrite Z.mod_small; auto.
  - cbn [Nat.iter it]. change (Nat.iter (S k) lcg x) with (lcg (Nat.iter k lcg x)). rewrite IH. unfold lcg.
    rewrite Zplus_mod, Zmult_mod, Z.mod_mod by (unfold W64; lia).
    rewrite <- Zmult_mod, <- Zplus_mod. reflexivity.
Qed.

Lemma lcg_period_lemma x i j : 0 <= x < W64 ->
  (Nat.iter i lcg x = Nat.iter j lcg x <-> Z.of_nat i mod W64 = Z.of_nat j mod W64).
Proof.
  intros Hx. rewrite !lcg_iter by auto. unfold W64. change 64 with (Z.of_nat 64).
  apply it_eq; reflexivity.
Qed.

Lemma lcg_all_lemma x y : 0 <= x < W64 -> 0 <= y < W64 ->
  exists k, Z.of_nat k < W64 /\ Nat.iter k lcg x = y.
Proof.
  intros Hx Hy. unfold W64 in *. change 64 with (Z.of_nat 64) in *.
  destruct (it_surj 25214903917 11 eq_refl eq_refl 64 x y Hy) as (k & Hk & E).
  exists k. split; [lia|]. rewrite lcg_iter by exact Hx. exact E.
Qed.

(** [k]-th result of a run of calls NextRandom(v). *)
Lemma next_random_every_lemma x v r : 0 <= x < W64 -> 1 <= v < 2 ^ 63 -> 0 <= r < v ->
  exists k, Z.of_nat k < W64 /\ snd (next_random (Nat.iter k lcg x) v) = Ret r.
Proof.
  intros Hx Hv Hr.
  (* a predecessor of the state r *)
  destruct (lcg_all_lemma (lcg x) r (lcg_range x)) as (k & Hk & E); [unfold W64; lia|].
  exists k. split; [exact Hk|].
  unfold next_random. cbn [snd].
  assert (E' : lcg (Nat.iter k lcg x) = r).
  { rewrite <- E. clear. induction k as [|k IH]; [reflexivity|].
    change (Nat.iter (S k) lcg (lcg x)) with (lcg (Nat.iter k lcg (lcg x))). rewrite <- IH. reflexivity. }
  rewrite E'. rewrite (Z.mod_small v) by (unfold W64; lia).
  destruct (Z.eqb_spec v 0); [lia|]. rewrite Z.mod_small by lia. unfold int_of_u64.
  destruct (Z.ltb_spec r (2 ^ 63)); [reflexivity|lia].
Qed.

Lemma next_random_pow2_lemma x e i j : 0 <= x < W64 -> (e < 63)%nat ->
  (snd (next_random (Nat.iter i lcg x) (2 ^ Z.of_nat e)) = snd (next_random (Nat.iter j lcg x) (2 ^ Z.of_nat e))
   <-> Z.of_nat i mod 2 ^ Z.of_nat e = Z.of_nat j mod 2 ^ Z.of_nat e).
Proof.
  intros Hx He.
  assert (Hp : 0 < 2 ^ Z.of_nat e) by (apply Z.pow_pos_nonneg; lia).
  assert (Hp' : 2 ^ Z.of_nat e < 2 ^ 63) by (apply Z.pow_lt_mono_r; lia).
  assert (G : forall k, snd (next_random (Nat.iter k lcg x) (2 ^ Z.of_nat e)) =
                        Ret (it 25214903917 11 (S k) x mod 2 ^ Z.of_nat e)).
  { intros k. unfold next_random. cbn [snd].
    change (lcg (Nat.iter k lcg x)) with (Nat.iter (S k) lcg x). rewrite lcg_iter by auto.
    rewrite (Z.mod_small (2 ^ Z.of_nat e)) by (unfold W64; lia).
    destruct (Z.eqb_spec (2 ^ Z.of_nat e) 0); [lia|].
    assert (Em : (it 25214903917 11 (S k) x mod W64) mod 2 ^ Z.of_nat e = it 25214903917 11 (S k) x mod 2 ^ Z.of_nat e).
    { symmetry. apply Znumtheory.Zmod_div_mod; [lia|reflexivity|].
      unfold W64. exists (2 ^ (64 - Z.of_nat e)). rewrite <- Z.pow_add_r by lia. f_equal; lia. }
    rewrite Em. unfold int_of_u64.
    pose proof (Z.mod_pos_bound (it 25214903917 11 (S k) x) (2 ^ Z.of_nat e) Hp).
    destruct (Z.ltb_spec (it 25214903917 11 (S k) x mod 2 ^ Z.of_nat e) (2 ^ 63)); [reflexivity|lia]. }
  rewrite !G.
  pose proof (it_eq 25214903917 11 eq_refl eq_refl e (S i) (S j) x) as H.
  split.
  - intros E. inversion E as [E']. apply H in E'.
    rewrite !Nat2Z.inj_succ in E'. unfold Z.succ in E'.
    assert (Ed : (Z.of_nat i + 1 - 1) mod 2 ^ Z.of_nat e = (Z.of_nat j + 1 - 1) mod 2 ^ Z.of_nat e).
    { rewrite Zminus_mod, E', <- Zminus_mod. reflexivity. }
    rewrite !Z.add_simpl_r in Ed. exact Ed.
  - intros E. f_equal. apply H. rewrite !Nat2Z.inj_succ. unfold Z.succ.
    rewrite Zplus_mod, E, <- Zplus_mod. reflexivity.
Qed.

(** ** IndexPerThread *)
Lemma trunc_conv_id q : 0 <= q <= 2 ^ 53 -> trunc_conv q = Some q.
Proof.
  intros Hq. destruct (f_of_Z_exact q) as (Er & Hf); [lia|].
  unfold trunc_conv, ftrunc.
  pose proof (Bnearbyint_correct 53 1024 _ mode_ZR (f_of_Z q)) as (H1 & H2 & _).
  assert (Ht : f2r (Bnearbyint mode_ZR (f_of_Z q)) = IZR q).
  { rewrite H1, Er. apply round_generic; auto with typeclass_instances.
    apply (generic_format_FIX radix2 0). exists (Float radix2 q 0); [unfold F2R; simpl; ring|reflexivity]. }
  rewrite f_to_Z_fin.
  - rewrite Ht, Ztrunc_IZR. reflexivity.
  - rewrite H2. exact Hf.
  - rewrite Ht, Ztrunc_IZR. lia.
Qed.

Definition chunk (t d i : Z) : Z := (d + i) / t.

Fixpoint sumf (f : Z -> Z) (n : nat) (i : Z) : Z :=
  match n with O => 0 | S k => f i + sumf f k (i + 1) end.

Lemma sumf_ext f g n : forall i, (forall k, f k = g k) -> sumf f n i = sumf g n i.
Proof. induction n as [|n IH]; intros i H; simpl; auto. rewrite H, (IH (i + 1) H); auto. Qed.

Lemma sumf_shift f n : forall i, sumf (fun k => f (k + 1)) n i = sumf f n i - f i + f (i + Z.of_nat n).
Proof.
  induction n as [|n IH]; intros i.
  - simpl. rewrite Z.add_0_r. lia.
  - cbn [sumf]. rewrite IH. rewrite Nat2Z.inj_succ.
    replace (i + 1 + Z.of_nat n) with (i + Z.succ (Z.of_nat n)) by lia. lia.
Qed.

Lemma sumf_floor t : 0 < t -> forall d : nat, sumf (chunk t (Z.of_nat d)) (Z.to_nat t) 0 = Z.of_nat d.
Proof.
  intros Ht. induction d as [|d IH].
  - assert (G : forall n i, 0 <= i -> i + Z.of_nat n <= t -> sumf (chunk t 0) n i = 0).
    { induction n as [|n IHn]; intros i Hi Hn; [reflexivity|]. cbn [sumf].
      rewrite IHn by lia. unfold chunk. rewrite Z.div_small by lia. reflexivity. }
    apply G; lia.
  - rewrite (sumf_ext _ (fun k => chunk t (Z.of_nat d) (k + 1))).
    2:{ intros k. unfold chunk. f_equal. lia. }
    rewrite sumf_shift, IH. unfold chunk. rewrite Z.add_0_r, Z2Nat.id by lia.
    rewrite Z.add_0_l.
    replace (Z.of_nat d + t) with (Z.of_nat d + 1 * t) by lia. rewrite Z.div_add by lia. lia.
Qed.

Lemma chunk_le t d i : 0 < t -> 0 <= i -> d / t <= chunk t d i.
Proof. intros. apply Z.div_le_mono; lia. Qed.
Lemma chunk_ge t d i : 0 < t -> i <= t - 1 -> chunk t d i <= (d + t - 1) / t.
Proof. intros. apply Z.div_le_mono; lia. Qed.

Lemma index_loop_spec t d : 0 < t -> 0 <= d -> d + t <= 2 ^ 53 ->
  forall n i prev, 1 <= i -> i + Z.of_nat n <= t -> exists l,
    index_loop n i prev t d = Ret l /\ length l = n /\
    (forall k, (k < n)%nat -> nth k l 0 = prev + sumf (chunk t d) (S k) i).
Proof.
  intros Ht Hd Hb. induction n as [|n IH]; intros i prev Hi Hn.
  - exists []. repeat split; auto. intros k Hk; lia.
  - cbn [index_loop].
    assert (Eq : Z.quot (d + i) t = chunk t d i) by (apply Z.quot_div_nonneg; lia).
    rewrite Eq, trunc_conv_id.
    2:{ split; [apply Z.div_pos; lia|]. apply Z.le_trans with (d + i); [|lia].
        unfold chunk. apply Z.div_le_upper_bound; nia. }
    destruct (IH (i + 1) (prev + chunk t d i)) as (l & E & Hl & Hk); [lia|lia|].
    rewrite E. cbn [obind]. eexists. split; [reflexivity|]. split; [simpl; lia|].
    intros [|k] Hk'; cbn [nth].
    + cbn [sumf]. lia.
    + rewrite Hk by lia. cbn [sumf]. lia.
Qed.

Lemma slices_cover {A} (data : list A) : forall bounds lo,
  0 <= lo -> (forall i, (i < length bounds)%nat -> nth i (lo :: bounds) 0 <= nth i bounds 0) ->
  last (lo :: bounds) 0 = Z.of_nat (length data) ->
  concat (slices data (lo :: bounds)) = skipn (Z.to_nat lo) data.
Proof.
  induction bounds as [|hi bounds IH]; intros lo Hlo Hmono Hlast.
  - simpl in Hlast. cbn. rewrite skipn_all2; auto. lia.
  - change (slice data lo hi ++ concat (slices data (hi :: bounds)) = skipn (Z.to_nat lo) data). rewrite IH.
    + unfold slice. pose proof (Hmono 0%nat ltac:(simpl; lia)) as H0. cbn in H0.
      replace (skipn (Z.to_nat hi) data) with (skipn (Z.to_nat (hi - lo)) (skipn (Z.to_nat lo) data)).
      * apply firstn_skipn.
      * clear -H0 Hlo. replace (Z.to_nat hi) with (Z.to_nat lo + Z.to_nat (hi - lo))%nat by lia.
        generalize (Z.to_nat (hi - lo)) as b. generalize (Z.to_nat lo) as a.
        induction data as [|y data IHd]; intros [|a] b; cbn; auto; try (rewrite !skipn_nil; reflexivity).
    + pose proof (Hmono 0%nat ltac:(simpl; lia)) as H0. cbn in H0. lia.
    + intros i Hi. apply (Hmono (S i)). simpl; lia.
    + rewrite <- Hlast. reflexivity.
Qed.

Lemma index_per_thread_lemma t d : 1 <= t -> 0 <= d -> d + t <= 2 ^ 53 ->
  exists bounds, index_per_thread t d = Ret bounds /\
    length bounds = S (Z.to_nat t) /\
    nth 0 bounds 0 = 0 /\ nth (Z.to_nat t) bounds 0 = d /\
    (forall i, (i < Z.to_nat t)%nat ->
       d / t <= nth (S i) bounds 0 - nth i bounds 0 <= (d + t - 1) / t) /\
    (forall (A : Type) (data : list A), Z.of_nat (length data) = d ->
       length (slices data bounds) = Z.to_nat t /\ concat (slices data bounds) = data).
Proof.
  intros Ht Hd Hb. unfold index_per_thread.
  destruct (Z.ltb_spec t 0); [lia|]. destruct (Z.eqb_spec t 0); [lia|].
  destruct (index_loop_spec t d ltac:(lia) Hd Hb (Z.to_nat (t - 1)) 1 0) as (l & E & Hl & Hk); [lia|lia|].
  rewrite E. cbn [obind]. exists (0 :: l ++ [d]). split; [reflexivity|].
  assert (Hlen : length (0 :: l ++ [d]) = S (Z.to_nat t)) by (simpl; rewrite app_length; simpl; lia).
  assert (Hlast : nth (Z.to_nat t) (0 :: l ++ [d]) 0 = d).
  { replace (Z.to_nat t) with (S (length l)) by lia. cbn [nth]. rewrite app_nth2, Nat.sub_diag by lia. reflexivity. }
  assert (Hb' : forall i, (i < Z.to_nat t)%nat -> nth i (0 :: l ++ [d]) 0 = sumf (chunk t d) i 1).
  { intros [|i] Hi; [reflexivity|]. cbn [nth]. rewrite app_nth1 by lia. rewrite Hk by lia. cbn [sumf]. lia. }
  assert (Hsz : forall i, (i < Z.to_nat t)%nat ->
       d / t <= nth (S i) (0 :: l ++ [d]) 0 - nth i (0 :: l ++ [d]) 0 <= (d + t - 1) / t).
  { intros i Hi.
    assert (Hsn : forall n j, sumf (chunk t d) (S n) j = sumf (chunk t d) n j + chunk t d (j + Z.of_nat n)).
    { induction n0 as [|n' IHn]; intros j.
      - cbn [sumf]. change (Z.of_nat 0) with 0. replace (j + 0) with j by lia. lia.
      - change (sumf (chunk t d) (S (S n')) j) with (chunk t d j + sumf (chunk t d) (S n') (j + 1)).
        rewrite IHn. cbn [sumf]. rewrite Nat2Z.inj_succ.
        replace (j + 1 + Z.of_nat n') with (j + Z.succ (Z.of_nat n')) by lia. lia. }
    destruct (Nat.eq_dec (S i) (Z.to_nat t)) as [Hi'|Hi'].
    - rewrite Hi', Hlast, Hb' by lia.
      pose proof (sumf_floor t ltac:(lia) (Z.to_nat d)) as Hs. rewrite Z2Nat.id in Hs by lia.
      rewrite <- Hi' in Hs. cbn [sumf] in Hs. change (0 + 1) with 1 in Hs.
      replace (d - sumf (chunk t d) i 1) with (chunk t d 0) by lia.
      split; [apply chunk_le; lia|apply chunk_ge; lia].
    - rewrite !Hb' by lia. rewrite Hsn. replace (sumf _ i 1 + _ - _) with (chunk t d (1 + Z.of_nat i)) by lia.
      split; [apply chunk_le; lia|apply chunk_ge; lia]. }
  split; [exact Hlen|]. split; [reflexivity|]. split; [exact Hlast|]. split; [exact Hsz|].
  intros A data HA. split.
  - assert (G : forall (bs : list Z) lo, length (slices data (lo :: bs)) = length bs).
    { induction bs as [|b bs IH]; intros lo; [reflexivity|].
      change (slices data (lo :: b :: bs)) with (slice data lo b :: slices data (b :: bs)).
      cbn [length]. rewrite IH. reflexivity. }
    rewrite G. rewrite app_length; simpl; lia.
  - rewrite slices_cover; [reflexivity|lia| |].
    + intros i Hi. rewrite app_length in Hi; simpl in Hi.
      pose proof (Hsz i ltac:(lia)) as Hs. pose proof (Z.div_pos d t Hd ltac:(lia)).
      change (nth i (l ++ [d]) 0) with (nth (S i) (0 :: l ++ [d]) 0). lia.
    + change (0 :: l ++ [d]) with ((0 :: l) ++ [d]). rewrite last_last. lia.
Qed.

Lemma index_per_thread_edge d :
  index_per_thread 0 d = Ret [d] /\ (forall t, t < 0 -> index_per_thread t d = Panic).
Proof.
  split; [reflexivity|]. intros t Ht. unfold index_per_thread. destruct (Z.ltb_spec t 0); [reflexivity|lia].
Qed.
