From Coq Require Import Lia.
From Verif.Lib Require Import Go ListFacts.
From Verif.Model Require Import GetPathRace.

Section R.
Variable up : list nat.

Lemma rrun_app s l1 l2 s1 : rrun up s l1 = Some s1 -> rrun up s (l1 ++ l2) = rrun up s1 l2.
Proof.
  revert s; induction l1 as [|t l1 IH]; intros s H; simpl in *; [congruence|].
  destruct (rstep up s t); [|discriminate]. auto.
Qed.

(** A state whose thread [t] is known. *)
Definition at_pc (s : rstate) t p d := nth_error (r_threads s) t = Some (Thread p d).

Lemma set_thread_at s t p d p0 d0 : at_pc s t p0 d0 -> at_pc (set_thread s t p d) t p d.
Proof.
  unfold at_pc, set_thread; simpl. intros H. apply upd_nth_error_eq. apply nth_error_Some; congruence.
Qed.
Lemma set_thread_other s t p d t' : t <> t' -> nth_error (r_threads (set_thread s t p d)) t' = nth_error (r_threads s) t'.
Proof. intros. simpl. apply upd_nth_error_neq; auto. Qed.

(** The part of the heap used by one filling call. *)
Definition filled (s : rstate) (k : nat) : Prop :=
  exists h, r_cache s = Some h /\ s_len h = k /\ k <= s_cap h /\ s_arr h < length (r_arrays s) /\
    length (arr_get s (s_arr h)) = s_cap h /\ contents s h = firstn k up.

Lemma arr_get_upd arrs c th a x b :
  a < length arrs ->
  arr_get (RState c (upd arrs a x) th) b = if a =? b then x else nth b arrs [].
Proof.
  intros Ha. unfold arr_get; simpl. rewrite nth_upd. destruct (Nat.eqb_spec a b); simpl; auto.
  destruct (Nat.ltb_spec a (length arrs)); auto; lia.
Qed.

Lemma firstn_upd_len {A} (l : list A) k x : k < length l -> firstn (S k) (upd l k x) = firstn k l ++ [x].
Proof.
  revert k; induction l as [|y l IH]; intros [|k] H; simpl in *; try lia; auto.
  f_equal. apply IH; lia.
Qed.

Lemma firstn_S_nth {A} (l : list A) k x : nth_error l k = Some x -> firstn (S k) l = firstn k l ++ [x].
Proof.
  revert k; induction l as [|y l IH]; intros [|k] H; simpl in *; try discriminate; auto.
  - congruence.
  - f_equal; auto.
Qed.

Lemma loop_step s t k d x : at_pc s t (PLoop k) d -> filled s k -> nth_error up k = Some x ->
  exists s', rstep up s t = Some s' /\ at_pc s' t (PLoop (S k)) d /\ filled s' (S k) /\
    (forall t', t' <> t -> nth_error (r_threads s') t' = nth_error (r_threads s) t').
Proof.
  intros Hpc (h & Hc & Hl & Hcap & Ha & Hal & Hcont) Hx.
  unfold rstep. rewrite Hpc, Hc, Hx.
  destruct (go_append s h x) as [s' h'] eqn:E. exists (set_thread (set_cache s' h') t (PLoop (S k)) d).
  assert (Hth : r_threads s' = r_threads s).
  { unfold go_append in E. destruct (s_len h <? s_cap h); inversion E; reflexivity. }
  split; [reflexivity|]. split.
  { eapply set_thread_at. unfold at_pc, set_cache; simpl. rewrite Hth. exact Hpc. }
  split.
  2:{ intros t' Ht'. rewrite set_thread_other by auto. simpl. rewrite Hth; auto. }
  exists h'. unfold go_append in E.
  destruct (Nat.ltb_spec (s_len h) (s_cap h)) as [Hlt|Hge]; inversion E; subst s' h'; clear E; cbn.
  - split; [reflexivity|]. split; [lia|]. split; [lia|]. split; [rewrite upd_length; auto|].
    unfold contents, arr_get. cbn. rewrite nth_upd, Nat.eqb_refl.
    destruct (Nat.ltb_spec (s_arr h) (length (r_arrays s))); [|lia]. cbn [andb].
    split; [rewrite upd_length; auto|].
    change (firstn (S (s_len h)) (upd (arr_get s (s_arr h)) (s_len h) x) = firstn (S k) up).
    rewrite firstn_upd_len by lia. unfold contents in Hcont. rewrite Hl in *. rewrite Hcont.
    symmetry. apply firstn_S_nth; auto.
  - split; [reflexivity|]. split; [lia|].
    assert (Hcap' : S k <= (if s_cap h =? 0 then 1 else s_cap h + (s_cap h + 0))).
    { destruct (Nat.eqb_spec (s_cap h) 0); lia. }
    split; [exact Hcap'|]. split; [rewrite app_length; simpl; lia|].
    unfold contents, arr_get. cbn. rewrite app_nth2, Nat.sub_diag by lia. cbn [nth].
    fold (arr_get s (s_arr h)).
    assert (Hfl : length (firstn (s_len h) (arr_get s (s_arr h))) = k) by (rewrite firstn_length; lia).
    split.
    + rewrite app_length, Hfl. simpl. rewrite repeat_length. lia.
    + rewrite Hl in *. change (firstn (S k) (firstn k (arr_get s (s_arr h)) ++ x :: repeat 0 ((if s_cap h =? 0 then 1 else s_cap h + (s_cap h + 0)) - S k)) = firstn (S k) up).
      rewrite firstn_app, Hfl. rewrite firstn_all2 by lia.
      replace (S k - k) with 1 by lia. cbn [firstn]. unfold contents in Hcont. rewrite Hl in Hcont. rewrite Hcont.
      symmetry. apply firstn_S_nth; auto.
Qed.

Lemma loop_run : forall m s t k d, at_pc s t (PLoop k) d -> filled s k -> k + m = length up ->
  exists s', rrun up s (repeat t m) = Some s' /\ at_pc s' t (PLoop (length up)) d /\ filled s' (length up) /\
    (forall t', t' <> t -> nth_error (r_threads s') t' = nth_error (r_threads s) t').
Proof.
  induction m as [|m IH]; intros s t k d Hpc HF Hk.
  - exists s. replace (length up) with k by lia. cbn; auto.
  - destruct (nth_error up k) as [x|] eqn:Ex; [|apply nth_error_None in Ex; lia].
    destruct (loop_step s t k d x Hpc HF Ex) as (s1 & E1 & Hpc1 & HF1 & Ho1).
    destruct (IH s1 t (S k) d Hpc1 HF1) as (s2 & E2 & Hpc2 & HF2 & Ho2); [lia|].
    exists s2. cbn [repeat rrun]. rewrite E1. repeat (split; [assumption|]).
    intros t' Ht'. rewrite Ho2, Ho1; auto.
Qed.

(** In-place reversal. *)
Definition half (a : list nat) (L : nat) (i : nat) : Prop :=
  L <= length a /\ forall x, x < L ->
    nth x a 0 = if (x <? i) || (L - 1 - i <? x) then nth (L - 1 - x) up 0 else nth x up 0.

Lemma rev_run : forall m s t h i d,
  at_pc s t (PRev h (Z.of_nat i) (Z.of_nat (length up) - 1 - Z.of_nat i)) d ->
  r_cache s = Some h -> s_arr h < length (r_arrays s) -> half (arr_get s (s_arr h)) (length up) i ->
  2 * i <= length up + 1 -> length up - 1 <= 2 * i + 2 * m -> 
  exists n s', rrun up s (repeat t n) = Some s' /\ at_pc s' t PCmp d /\ r_cache s' = Some h /\
    s_arr h < length (r_arrays s') /\ firstn (length up) (arr_get s' (s_arr h)) = rev up /\
    length (arr_get s' (s_arr h)) = length (arr_get s (s_arr h)) /\
    (forall t', t' <> t -> nth_error (r_threads s') t' = nth_error (r_threads s) t').
Proof.
  assert (Hend : forall s t h i d,
    at_pc s t (PRev h (Z.of_nat i) (Z.of_nat (length up) - 1 - Z.of_nat i)) d ->
    r_cache s = Some h -> s_arr h < length (r_arrays s) -> half (arr_get s (s_arr h)) (length up) i ->
    2 * i <= length up + 1 -> length up - 1 <= 2 * i ->
    exists n s', rrun up s (repeat t n) = Some s' /\ at_pc s' t PCmp d /\ r_cache s' = Some h /\
    s_arr h < length (r_arrays s') /\ firstn (length up) (arr_get s' (s_arr h)) = rev up /\
    length (arr_get s' (s_arr h)) = length (arr_get s (s_arr h)) /\
    (forall t', t' <> t -> nth_error (r_threads s') t' = nth_error (r_threads s) t')).
  { intros s t h i d Hpc Hc Ha (HL & Hh) Hi Hm.
    exists 1, (set_thread s t PCmp d). cbn [repeat rrun]. unfold rstep. rewrite Hpc.
    destruct (Z.ltb_spec (Z.of_nat i) (Z.of_nat (length up) - 1 - Z.of_nat i)); [lia|].
    split; [reflexivity|]. split; [eapply set_thread_at; exact Hpc|].
    split; [exact Hc|]. split; [exact Ha|].
    split; [|split; [reflexivity|intros; apply set_thread_other; auto]].
    change (arr_get (set_thread s t PCmp d) (s_arr h)) with (arr_get s (s_arr h)).
    apply (nth_ext _ _ 0 0); [rewrite firstn_length, rev_length; lia|].
    intros x Hx. rewrite firstn_length in Hx.
    assert (Hx' : x < length up) by lia.
    rewrite rev_nth by auto.
    assert (E : nth x (firstn (length up) (arr_get s (s_arr h))) 0 = nth x (arr_get s (s_arr h)) 0).
    { rewrite <- (firstn_skipn (length up) (arr_get s (s_arr h))) at 2. rewrite app_nth1; auto. rewrite firstn_length; lia. }
    rewrite E, Hh by auto.
    destruct (Nat.ltb_spec x i); [cbn; f_equal; lia|].
    destruct (Nat.ltb_spec (length up - 1 - i) x); [cbn; f_equal; lia|].
    cbn. f_equal. lia. }
  induction m as [|m IH]; intros s t h i d Hpc Hc Ha HH Hi Hm.
  - apply (Hend s t h i d); auto; lia.
  - destruct (le_lt_dec (length up - 1) (2 * i)) as [Hle|Hgt]; [apply (Hend s t h i d); auto|].
    destruct HH as (HL & Hh).
    set (j := length up - 1 - i).
    assert (Ej : (Z.of_nat (length up) - 1 - Z.of_nat i)%Z = Z.of_nat j) by (unfold j; lia).
    set (a := arr_get s (s_arr h)) in *.
    set (a' := upd (upd a i (nth j a 0)) j (nth i a 0)).
    set (s1 := set_thread (RState (r_cache s) (upd (r_arrays s) (s_arr h) a') (r_threads s)) t
                 (PRev h (Z.of_nat (S i)) (Z.of_nat (length up) - 1 - Z.of_nat (S i))) d).
    assert (E1 : rstep up s t = Some s1).
    { unfold rstep. rewrite Hpc, Ej. destruct (Z.ltb_spec (Z.of_nat i) (Z.of_nat j)); [|lia].
      rewrite !Nat2Z.id. unfold s1. do 3 f_equal; lia. }
    assert (Hg : arr_get s1 (s_arr h) = a').
    { unfold s1, set_thread, arr_get; cbn. rewrite nth_upd, Nat.eqb_refl.
      destruct (Nat.ltb_spec (s_arr h) (length (r_arrays s))); [reflexivity|lia]. }
    destruct (IH s1 t h (S i) d) as (n & s' & E2 & P1 & P2 & P3 & P4 & P5 & P6).
    + unfold s1. eapply set_thread_at. unfold at_pc. cbn. exact Hpc.
    + exact Hc.
    + unfold s1; cbn. rewrite upd_length; auto.
    + rewrite Hg. split; [unfold a'; rewrite !upd_length; auto|].
      intros x Hx. unfold a'. rewrite !nth_upd, !upd_length.
      destruct (Nat.eqb_spec j x) as [<-|Hjx]; cbn [andb].
      * destruct (Nat.ltb_spec j (length a)); [|lia].
        rewrite Hh by lia. 
        replace ((i <? i) || (length up - 1 - i <? i)) with false.
        2:{ symmetry; apply orb_false_iff; split; apply Nat.ltb_ge; lia. }
        replace ((j <? S i) || (length up - 1 - S i <? j)) with true.
        2:{ symmetry; apply orb_true_iff; right; apply Nat.ltb_lt; lia. }
        f_equal; lia.
      * destruct (Nat.eqb_spec i x) as [<-|Hix]; cbn [andb].
        -- destruct (Nat.ltb_spec i (length a)); [|lia].
           rewrite Hh by lia.
           replace ((j <? i) || (length up - 1 - i <? j)) with false.
           2:{ symmetry; apply orb_false_iff; split; apply Nat.ltb_ge; lia. }
           replace ((i <? S i) || (length up - 1 - S i <? i)) with true.
           2:{ symmetry; apply orb_true_iff; left; apply Nat.ltb_lt; lia. }
           f_equal; lia.
        -- rewrite Hh by lia.
           replace ((x <? S i) || (length up - 1 - S i <? x)) with ((x <? i) || (length up - 1 - i <? x)); [reflexivity|].
           destruct (Nat.ltb_spec x i), (Nat.ltb_spec x (S i)), (Nat.ltb_spec (length up - 1 - i) x),
             (Nat.ltb_spec (length up - 1 - S i) x); cbn; auto; lia.
    + lia.
    + lia.
    + exists (S n), s'. cbn [repeat rrun]. rewrite E1. split; [exact E2|].
      split; [exact P1|]. split; [exact P2|]. split; [exact P3|]. split; [exact P4|].
      split; [rewrite P5, Hg; unfold a'; rewrite !upd_length; auto|].
      intros t' Ht'. rewrite P6 by auto. unfold s1. rewrite set_thread_other by auto. reflexivity.
Qed.

(** One thread running alone from [PMake] to [PSlice]. *)
Lemma fill_run s t d : at_pc s t PMake d ->
  exists n s' h d', rrun up s (repeat t n) = Some s' /\ at_pc s' t PSlice d' /\
    r_cache s' = Some h /\ contents s' h = rev up /\ s_len h = length up /\ s_len h <= s_cap h /\
    d' = (if (d >? Z.of_nat (length up))%Z then Z.of_nat (length up) else d) /\
    (forall t', t' <> t -> nth_error (r_threads s') t' = nth_error (r_threads s) t').
Proof.
  intros Hpc.
  set (s1 := set_thread (RState (Some (Hdr (length (r_arrays s)) 0 0)) (r_arrays s ++ [[]]) (r_threads s)) t (PLoop 0) d).
  assert (E1 : rrun up s [t] = Some s1).
  { cbn [rrun]. unfold rstep. rewrite Hpc. reflexivity. }
  assert (Hpc1 : at_pc s1 t (PLoop 0) d) by (eapply set_thread_at; unfold at_pc; cbn; exact Hpc).
  assert (HF1 : filled s1 0).
  { eexists. split; [reflexivity|]. cbn. split; [auto|]. split; [auto|].
    split; [rewrite app_length; simpl; lia|]. unfold contents, arr_get; cbn.
    rewrite app_nth2, Nat.sub_diag by lia. auto. }
  destruct (loop_run (length up) s1 t 0 d Hpc1 HF1 eq_refl) as (s2 & E2 & Hpc2 & HF2 & Ho2).
  destruct HF2 as (h & Hc & Hl & Hcap & Ha & Hal & Hcont).
  set (s3 := set_thread s2 t (PRev h 0 (Z.of_nat (s_len h) - 1)) d).
  assert (E3 : rrun up s2 [t] = Some s3).
  { cbn [rrun]. unfold rstep. rewrite Hpc2, Hc.
    replace (nth_error up (length up)) with (@None nat); [reflexivity|].
    symmetry. apply nth_error_None. lia. }
  destruct (rev_run (length up) s3 t h 0 d) as (n & s4 & E4 & Hpc4 & Hc4 & Ha4 & Hcont4 & Hlen4 & Ho4).
  - unfold s3. rewrite Hl. replace (Z.of_nat (length up) - 1 - Z.of_nat 0)%Z with (Z.of_nat (length up) - 1)%Z by lia.
    eapply set_thread_at; exact Hpc2.
  - exact Hc.
  - exact Ha.
  - change (arr_get s3 (s_arr h)) with (arr_get s2 (s_arr h)). split; [lia|].
    intros x Hx. replace ((x <? 0) || (length up - 1 - 0 <? x)) with false.
    2:{ symmetry; apply orb_false_iff; split; apply Nat.ltb_ge; lia. }
    unfold contents in Hcont. rewrite Hl, (firstn_all up) in Hcont.
    rewrite <- Hcont. rewrite <- (firstn_skipn (length up) (arr_get s2 (s_arr h))) at 1. rewrite app_nth1; auto.
    rewrite firstn_length; lia.
  - lia.
  - lia.
  - set (d' := if (d >? Z.of_nat (length up))%Z then Z.of_nat (length up) else d).
    assert (E5 : exists m s5, rrun up s4 (repeat t m) = Some s5 /\ at_pc s5 t PSlice d' /\
              r_cache s5 = r_cache s4 /\ r_arrays s5 = r_arrays s4 /\
              (forall t', t' <> t -> nth_error (r_threads s5) t' = nth_error (r_threads s4) t')).
    { assert (Hlc : len_cache s4 = length up) by (unfold len_cache; rewrite Hc4; exact Hl).
      unfold d'. destruct (Z.gtb_spec d (Z.of_nat (length up))) as [Hgt|Hle].
      - exists 2, (set_thread (set_thread s4 t PClamp d) t PSlice (Z.of_nat (length up))).
        split.
        { cbn [repeat rrun]. unfold rstep at 1. rewrite Hpc4, Hlc.
          replace (d >? Z.of_nat (length up))%Z with true by (symmetry; apply Z.gtb_lt; lia).
          unfold rstep. rewrite (set_thread_at s4 t PClamp d _ _ Hpc4).
          unfold len_cache in Hlc |- *. cbn. rewrite Hlc. reflexivity. }
        split; [eapply set_thread_at, set_thread_at; exact Hpc4|].
        split; [reflexivity|]. split; [reflexivity|].
        intros t' Ht'. rewrite !set_thread_other by auto. reflexivity.
      - exists 1, (set_thread s4 t PSlice d).
        split.
        { cbn [repeat rrun]. unfold rstep at 1. rewrite Hpc4, Hlc.
          replace (d >? Z.of_nat (length up))%Z with false; [reflexivity|].
          symmetry. destruct (Z.gtb_spec d (Z.of_nat (length up))); auto; lia. }
        split; [eapply set_thread_at; exact Hpc4|].
        split; [reflexivity|]. split; [reflexivity|].
        intros t' Ht'. rewrite !set_thread_other by auto. reflexivity. }
    destruct E5 as (m & s5 & E5 & Hpc5 & Hc5 & Har5 & Ho5).
    exists (1 + (length up + (1 + (n + m)))), s5, h, d'.
    split.
    { rewrite !repeat_app. rewrite (rrun_app _ _ _ s1 E1). rewrite (rrun_app _ _ _ s2 E2).
      rewrite (rrun_app _ _ _ s3 E3). rewrite (rrun_app _ _ _ s4 E4). exact E5. }
    split; [exact Hpc5|]. split; [rewrite Hc5; exact Hc4|].
    split. { unfold contents, arr_get in *. rewrite Har5, Hl. exact Hcont4. }
    split; [exact Hl|]. split; [lia|]. split; [reflexivity|].
    intros t' Ht'. rewrite Ho5, Ho4 by auto. unfold s3. rewrite set_thread_other by auto.
    rewrite Ho2 by auto. unfold s1. rewrite set_thread_other by auto. reflexivity.
Qed.
End R.

Definition is_done (s : rstate) (t : nat) (res : list nat) : Prop :=
  exists h d, at_pc s t (PDone h) d /\ contents s h = res.

(** Alone, the small-step semantics computes the root path cut at depth. *)
Lemma race_alone_lemma up d : (0 <= d)%Z ->
  exists n s', rrun up (rcold [d]) (repeat 0 n) = Some s' /\
    exists h d', nth_error (r_threads s') 0 = Some (Thread (PDone h) d') /\
      contents s' h = firstn (Z.to_nat d) (rev up).
Proof.
  intros Hd.
  set (s1 := set_thread (rcold [d]) 0 PMake d).
  assert (Hpc : at_pc s1 0 PMake d) by reflexivity.
  destruct (fill_run up s1 0 d Hpc) as (n & s2 & h & d' & E & Hpc2 & Hc & Hcont & Hl & Hcap & Hd' & _).
  assert (Hd'0 : (0 <= d' <= Z.of_nat (s_len h))%Z).
  { rewrite Hl. subst d'. destruct (Z.gtb_spec d (Z.of_nat (length up))); lia. }
  set (s3 := set_thread s2 0 (PDone (Hdr (s_arr h) (Z.to_nat d') (s_cap h))) d').
  exists (1 + (n + 1)), s3. split.
  - rewrite !repeat_app. rewrite (rrun_app up _ _ _ s1) by reflexivity. rewrite (rrun_app up _ _ _ s2 E).
    cbn [repeat rrun]. unfold rstep. rewrite Hpc2, Hc.
    replace ((d' <? 0) || (d' >? Z.of_nat (s_cap h)))%Z with false; [reflexivity|].
    symmetry. apply orb_false_iff. split; [apply Z.ltb_ge; lia|].
    destruct (Z.gtb_spec d' (Z.of_nat (s_cap h))); auto; lia.
  - eexists _, d'. split; [exact (set_thread_at s2 0 _ d' _ _ Hpc2)|].
    change (contents s3 (Hdr (s_arr h) (Z.to_nat d') (s_cap h))) with (firstn (Z.to_nat d') (arr_get s2 (s_arr h))).
    unfold contents in Hcont. rewrite <- Hcont, firstn_firstn.
    subst d'. rewrite Hl. destruct (Z.gtb_spec d (Z.of_nat (length up))).
    + f_equal. lia.
    + f_equal. lia.
Qed.

(** Two goroutines: a wrong (empty) path. *)
Lemma race_wrong_lemma up d1 d2 : up <> [] -> (1 <= d2)%Z ->
  exists sched s' h d', rrun up (rcold [d1; d2]) sched = Some s' /\
    nth_error (r_threads s') 1 = Some (Thread (PDone h) d') /\
    contents s' h <> firstn (Z.to_nat d2) (rev up).
Proof.
  intros Hu Hd. exists [0; 0; 1; 1; 1; 1]. eexists _, _, _.
  split.
  - unfold rcold. cbn [map rrun rstep nth_error r_threads r_cache set_thread upd].
    unfold len_cache. cbn. destruct (Z.gtb_spec d2 0); [|lia]. cbn. reflexivity.
  - split; [reflexivity|]. cbn. intros E.
    assert (Hlen : length (firstn (Z.to_nat d2) (rev up)) = 0) by (rewrite <- E; reflexivity).
    rewrite firstn_length, rev_length in Hlen. destruct up; [congruence|]. simpl in Hlen. lia.
Qed.

(** Two goroutines: a panic. *)
Lemma race_panic_lemma up d1 d2 : up <> [] -> (1 <= d2)%Z ->
  exists sched s' d', rrun up (rcold [d1; d2]) sched = Some s' /\
    nth_error (r_threads s') 1 = Some (Thread PPanic d').
Proof.
  intros Hu Hd.
  set (s1 := RState None [] [Thread PMake d1; Thread PMake d2]).
  assert (E1 : rrun up (rcold [d1; d2]) [0; 1] = Some s1) by reflexivity.
  destruct (fill_run up s1 1 d2 eq_refl) as (n & s2 & h & d' & E & Hpc2 & Hc & Hcont & Hl & Hcap & Hd' & Ho).
  assert (Hpc0 : nth_error (r_threads s2) 0 = Some (Thread PMake d1)) by (rewrite Ho by lia; reflexivity).
  set (s3 := set_thread (RState (Some (Hdr (length (r_arrays s2)) 0 0)) (r_arrays s2 ++ [[]]) (r_threads s2)) 0 (PLoop 0) d1).
  assert (E3 : rrun up s2 [0] = Some s3) by (cbn [rrun]; unfold rstep; rewrite Hpc0; reflexivity).
  assert (Hd'1 : (1 <= d')%Z).
  { subst d'. destruct up; [congruence|]. simpl length.
    destruct (Z.gtb_spec d2 (Z.of_nat (S (length up)))); lia. }
  assert (Hpc3 : nth_error (r_threads s3) 1 = Some (Thread PSlice d')).
  { unfold s3. rewrite set_thread_other by lia. exact Hpc2. }
  exists ([0; 1] ++ repeat 1 n ++ [0] ++ [1]), (set_thread s3 1 PPanic d'), d'.
  split.
  - rewrite (rrun_app up _ _ _ s1 E1), (rrun_app up _ _ _ s2 E), (rrun_app up _ _ _ s3 E3).
    cbn [rrun]. unfold rstep. rewrite Hpc3. cbn [r_cache s3 set_thread s_cap].
    replace ((d' <? 0) || (d' >? Z.of_nat 0))%Z with true; [reflexivity|].
    symmetry. apply orb_true_iff. right. apply Z.gtb_lt. lia.
  - eapply set_thread_at. exact Hpc3.
Qed.

(** With a filled cache every interleaving of any number of calls is harmless. *)
Section Warm.
  Variables (up : list nat) (h : hdr) (arrs : list (list nat)) (depths : list Z).
  Hypothesis Hc : firstn (s_len h) (nth (s_arr h) arrs []) = rev up.
  Hypothesis Hlen : s_len h = length up.
  Hypothesis Hcap : s_len h <= s_cap h.
  Definition rwarm := RState (Some h) arrs (map (Thread PNil) depths).

  Definition thread_ok (d0 : Z) (th : thread) : Prop :=
    match t_pc th with
    | PNil | PCmp => t_depth th = d0
    | PClamp => t_depth th = d0 /\ (d0 > Z.of_nat (length up))%Z
    | PSlice => t_depth th = if (d0 >? Z.of_nat (length up))%Z then Z.of_nat (length up) else d0
    | PDone h' => (0 <= d0)%Z /\ h' = Hdr (s_arr h) (Nat.min (Z.to_nat d0) (length up)) (s_cap h)
    | PPanic => (d0 < 0)%Z
    | _ => False
    end.

  Definition warm_ok (s : rstate) : Prop :=
    r_cache s = Some h /\ r_arrays s = arrs /\ Forall2 thread_ok depths (r_threads s).

  Lemma Forall2_nth {A B} (P : A -> B -> Prop) l l' t y : Forall2 P l l' -> nth_error l' t = Some y ->
    exists x, nth_error l t = Some x /\ P x y.
  Proof.
    intros H; revert t; induction H as [|a b l l' Hab H IH]; intros [|t] E; simpl in *; try discriminate.
    - inversion E; subst. eauto.
    - auto.
  Qed.

  Lemma Forall2_upd {A B} (P : A -> B -> Prop) l l' t x y : Forall2 P l l' -> nth_error l t = Some x -> P x y ->
    Forall2 P l (upd l' t y).
  Proof.
    intros H; revert t; induction H as [|a b l l' Hab H IH]; intros [|t] E HP; simpl in *; try discriminate.
    - inversion E; subst. constructor; auto.
    - constructor; auto.
  Qed.

  Lemma warm_step s t s' : warm_ok s -> rstep up s t = Some s' -> warm_ok s'.
  Proof.
    intros (H1 & H2 & H3) E. unfold rstep in E.
    destruct (nth_error (r_threads s) t) as [[p d]|] eqn:Et; [|discriminate].
    destruct (Forall2_nth _ _ _ _ _ H3 Et) as (d0 & Ed & Hok). unfold thread_ok in Hok; cbn in Hok.
    assert (Hlc : len_cache s = length up) by (unfold len_cache; rewrite H1; auto).
    destruct p; try tauto; rewrite ?H1 in E.
    - inversion E; subst s'. split; [exact H1|]. split; [exact H2|]. cbn.
      eapply Forall2_upd; eauto. 
    - rewrite Hlc in E. inversion E; subst s'. split; [exact H1|]. split; [exact H2|]. cbn.
      eapply Forall2_upd; eauto. subst d. unfold thread_ok. 
      destruct (Z.gtb_spec d0 (Z.of_nat (length up))); cbn.
      + split; auto; lia.
      + destruct (Z.gtb_spec d0 (Z.of_nat (length up))); auto; lia.
    - rewrite Hlc in E. inversion E; subst s'. split; [exact H1|]. split; [exact H2|]. cbn.
      eapply Forall2_upd; eauto. unfold thread_ok; cbn. destruct Hok as [-> Hgt].
      destruct (Z.gtb_spec d0 (Z.of_nat (length up))); auto; lia.
    - destruct ((d <? 0) || (d >? Z.of_nat (s_cap h)))%Z eqn:Eb; inversion E; subst s';
      (split; [exact H1|split; [exact H2|]]); cbn; eapply Forall2_upd; eauto; unfold thread_ok; cbn.
      + apply orb_true_iff in Eb. destruct Eb as [Eb|Eb].
        * apply Z.ltb_lt in Eb. destruct (Z.gtb_spec d0 (Z.of_nat (length up))); lia.
        * apply Z.gtb_lt in Eb. destruct (Z.gtb_spec d0 (Z.of_nat (length up))); lia.
      + apply orb_false_iff in Eb. destruct Eb as [Eb _]. apply Z.ltb_ge in Eb.
        destruct (Z.gtb_spec d0 (Z.of_nat (length up))); (split; [lia|]); f_equal; lia.
    - discriminate.
    - discriminate.
  Qed.

  Lemma warm_run sched : forall s s', warm_ok s -> rrun up s sched = Some s' -> warm_ok s'.
  Proof.
    induction sched as [|t sched IH]; intros s s' Hs E; simpl in E; [congruence|].
    destruct (rstep up s t) as [s1|] eqn:E1; [|discriminate].
    eapply IH; [eapply warm_step; eauto|exact E].
  Qed.

  Lemma warm_lemma sched s' : rrun up rwarm sched = Some s' ->
    forall t d th, nth_error depths t = Some d -> nth_error (r_threads s') t = Some th ->
    (t_pc th = PPanic -> (d < 0)%Z) /\
    (forall h', t_pc th = PDone h' -> contents s' h' = firstn (Z.to_nat d) (rev up)).
  Proof.
    intros E t d th Ed Et.
    assert (H0 : warm_ok rwarm).
    { split; [reflexivity|]. split; [reflexivity|]. cbn. clear. induction depths; simpl; constructor; auto.
      reflexivity. }
    destruct (warm_run sched _ _ H0 E) as (H1 & H2 & H3).
    destruct (Forall2_nth _ _ _ _ _ H3 Et) as (d0 & Ed' & Hok).
    assert (d0 = d) by congruence. subst d0. unfold thread_ok in Hok.
    split.
    - intros Hp. rewrite Hp in Hok. exact Hok.
    - intros h' Hp. rewrite Hp in Hok. destruct Hok as [Hd ->].
      unfold contents, arr_get. cbn. rewrite H2.
      rewrite <- Hc, firstn_firstn. f_equal. lia.
  Qed.
End Warm.
