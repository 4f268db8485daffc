(** * ReadWord *)
From Verif.Lib Require Import Go Utf8 ListFacts Tac.
From Verif.Spec Require Import Tokens Window.
From Verif.Model Require Import Reader.
From Verif.Proofs Require Import Tokens.

Lemma scanner_spec r ws e : scanner (rd_seek0 r) = (ws, e) ->
  exists more, tokens (rd_data r) (ws ++ more) /\
    Forall (fun w => (Z.of_nat (length w) < 65536)%Z) ws /\
    (more = [] -> e = if rd_err r then Some err_read else None) /\
    (more <> [] -> e = Some err_too_long /\
       exists w more', more = w :: more' /\ (65534 <= Z.of_nat (length w))%Z).
Proof.
  unfold scanner, rd_seek0. cbn [rd_data rd_pos rd_err skipn].
  destruct (scan_words _ _) as [ws0 tl] eqn:E. intros Eq; inversion Eq; subst ws0 e. clear Eq.
  apply scan_words_spec in E; [|lia]. destruct E as (more & H1 & H2 & H3 & H4).
  exists more. split; auto. split; auto. destruct tl.
  - destruct (H4 eq_refl) as (w & m & -> & Hw). split; [discriminate|]. intros _. split; eauto.
  - rewrite H3 by auto. split; [auto|congruence].
Qed.

Lemma tokens_exist data : exists ws, tokens data ws.
Proof.
  destruct (scan_words (S (length data)) data) as [ws e] eqn:E.
  apply scan_words_spec in E; [|lia]. destruct E as (more & H & _). now exists (ws ++ more).
Qed.

Lemma tokens_words data ws : tokens data ws -> Forall (fun w => w <> [] /\ ~ has_space w) ws.
Proof. induction 1; auto. Qed.

Lemma tokens_unique_lemma data : exists ws, tokens data ws /\
  (forall ws', tokens data ws' -> ws' = ws) /\ Forall (fun w => w <> [] /\ ~ has_space w) ws.
Proof.
  destruct (tokens_exist data) as [ws H]. exists ws. split; [auto|]. split.
  - intros ws' H'. now apply (tokens_det data).
  - now apply tokens_words in H.
Qed.

(** The scanner on a document whose words all fit in the buffer. *)
Lemma scanner_fits r all : tokens (rd_data r) all ->
  Forall (fun w => (Z.of_nat (length w) <= 65533)%Z) all ->
  scanner (rd_seek0 r) = (all, if rd_err r then Some err_read else None).
Proof.
  intros Ht Hs. destruct (scanner (rd_seek0 r)) as [ws e] eqn:E.
  apply scanner_spec in E. destruct E as (more & H & _ & H0 & H1).
  assert (all = ws ++ more) by now apply (tokens_det (rd_data r)). subst all.
  destruct more as [|x more].
  - rewrite H0 by auto. now rewrite app_nil_r.
  - destruct H1 as (_ & w & m & E & Hw); [discriminate|]. inversion E; subst.
    apply Forall_app in Hs as [_ Hs]. inversion Hs; subst. lia.
Qed.

Lemma read_word_lemma St (fn : callback St gostring) s r all : tokens (rd_data r) all ->
  exists ws more, all = ws ++ more /\
    Forall (fun w => (Z.of_nat (length w) < 65536)%Z) ws /\
    (forall w more', more = w :: more' -> (65534 <= Z.of_nat (length w))%Z) /\
    (Forall (fun w => (Z.of_nat (length w) <= 65533)%Z) all -> more = []) /\
    read_word r fn s =
      match for_each fn s ws with
      | (s', Ret _) => (s', match more with
                            | [] => if rd_err r then Err err_read else Ret tt
                            | _ => Err err_too_long
                            end)
      | res => res
      end.
Proof.
  intros Ht. destruct (scanner (rd_seek0 r)) as [ws e] eqn:E.
  pose proof (scanner_spec _ _ _ E) as (more & H & Hs & H0 & H1).
  assert (all = ws ++ more) by now apply (tokens_det (rd_data r)). subst all.
  exists ws, more. split; auto. split; auto.
  split; [|split].
  - intros w m ->. destruct H1 as (_ & w' & m' & Em & Hw); [discriminate|]. inversion Em; subst. lia.
  - intros Hf. destruct more as [|x more]; auto.
    destruct H1 as (_ & w & m & Em & Hw); [discriminate|]. inversion Em; subst.
    apply Forall_app in Hf as [_ Hf]. inversion Hf; subst. lia.
  - unfold read_word. rewrite E. destruct (for_each fn s ws) as [s' [a|er|]]; auto.
    destruct more as [|x more].
    + rewrite H0 by auto. destruct (rd_err r); reflexivity.
    + destruct H1 as (-> & _); [discriminate|]. reflexivity.
Qed.

(** A callback that logs the words it sees and fails on some of them. *)
Lemma for_each_log (bad : gostring -> bool) log ws :
  exists seen rest o, ws = seen ++ rest /\
    for_each (fun log w => (log ++ [w], if bad w then Err "stop"%string else Ret tt)) log ws = (log ++ seen, o) /\
    ((o = Ret tt /\ rest = [] /\ forallb (fun w => negb (bad w)) ws = true) \/
     (o = Err "stop"%string /\ exists pre w, seen = pre ++ [w] /\ bad w = true /\ forallb (fun w => negb (bad w)) pre = true)).
Proof.
  revert log; induction ws as [|w ws IH]; intros log; simpl.
  - exists [], [], (Ret tt). rewrite (app_nil_r log). split; [auto|]. split; [auto|]. left; auto.
  - destruct (bad w) eqn:B.
    + exists [w], ws, (Err "stop"%string). split; auto. split; auto. right. split; auto.
      exists [], w. auto.
    + destruct (IH (log ++ [w])) as (seen & rest & o & -> & -> & H).
      exists (w :: seen), rest, o. split; auto. rewrite <- app_assoc. split; auto.
      destruct H as [(-> & -> & H)|(-> & pre & x & -> & Hx & Hp)].
      * left. auto.
      * right. split; auto. exists (w :: pre), x. simpl. rewrite B. auto.
Qed.

(** ** ReadWordWithForwardContext *)

Lemma for_each_app {St A} (fn : callback St A) s a b :
  for_each fn s (a ++ b) = match for_each fn s a with
                           | (s', Ret _) => for_each fn s' b
                           | r => r
                           end.
Proof.
  revert s; induction a as [|x a IH]; intros s; simpl; auto.
  destruct (fn s x) as [s' [u|e|]]; auto.
Qed.

Lemma post_fn_map {St} (fn : callback St (gostring * gostring)) s a l :
  post_fn fn s a l = for_each fn s (map (pair a) l).
Proof.
  unfold post_fn. revert s; induction l as [|x l IH]; intros s; simpl; auto.
  destruct (fn s (a, x)) as [s' [u|e|]]; auto.
Qed.

Definition fc_finish {St} (fn : callback St (gostring * gostring))
    (r : St * outcome (gostring * list gostring)) : St * outcome unit :=
  match r with
  | (s', Ret (axis, ws)) => post_fn fn s' axis ws
  | (s', Err e) => (s', Err e)
  | (s', Panic) => (s', Panic)
  end.

Lemma for_each_ret_tt {St A} (fn : callback St A) s l s' u :
  for_each fn s l = (s', Ret u) -> u = tt.
Proof. destruct u; auto. Qed.

Lemma fc_loop_steady {St} (fn : callback St (gostring * gostring)) n :
  forall toks fuel s axis ws, axis <> [] -> length ws = S n -> length toks < fuel ->
  Forall (fun w => w <> []) ws -> Forall (fun w => w <> []) toks ->
  fc_finish fn (fc_loop fuel fn s axis ws toks) =
  for_each fn s (window_pairs_upto (S (length toks)) (S n) (ws ++ toks)).
Proof.
  induction toks as [|t toks IH]; intros fuel s axis ws Ha Hl Hf Hws Ht.
  - destruct fuel as [|fuel]; [simpl in Hf; lia|]. cbn [fc_loop].
    destruct (gseqb_spec axis []); [congruence|].
    destruct ws as [|w0 ws']; [discriminate|]. cbn [fc_finish].
    rewrite post_fn_map. cbn [length app window_pairs_upto]. rewrite !app_nil_r.
    simpl in Hl. rewrite firstn_all2 by lia. reflexivity.
  - destruct fuel as [|fuel]; [simpl in Hf; lia|]. cbn [fc_loop].
    destruct (gseqb_spec axis []); [congruence|].
    destruct ws as [|w0 ws']; [discriminate|].
    inversion Hws; subst. inversion Ht; subst.
    assert (E : window_pairs_upto (S (length (t :: toks))) (S n) ((w0 :: ws') ++ t :: toks) =
                map (pair w0) (ws' ++ [t]) ++ window_pairs_upto (S (length toks)) (S n) ((ws' ++ [t]) ++ toks)).
    { rewrite <- app_assoc. cbn [app]. cbn [length]. change (window_pairs_upto (S (S (length toks))) (S n) (w0 :: ws' ++ t :: toks)) with (map (pair w0) (firstn (S n) (ws' ++ t :: toks)) ++ window_pairs_upto (S (length toks)) (S n) (ws' ++ t :: toks)). f_equal. f_equal.
      simpl in Hl. rewrite firstn_app, firstn_all2 by lia.
      replace (S n - length ws') with 1 by lia. reflexivity. }
    rewrite E, for_each_app, post_fn_map.
    destruct (for_each fn s (map (pair w0) (ws' ++ [t]))) as [s' [u|e|]]; cbn [fc_finish]; auto.
    apply IH; auto.
    + rewrite app_length. simpl in *. lia.
    + simpl in Hf. lia.
    + apply Forall_app. auto.
Qed.

(** What is emitted for a document [ws] of words and window [n >= 1]. *)
Definition fc_emitted (n : nat) (ws : list gostring) : list (gostring * gostring) :=
  match ws with
  | [] => repeat ([], []) n
  | w :: t =>
    if Nat.ltb n (length ws) then window_pairs_upto (length ws - n + 1) n ws
    else let p := t ++ repeat [] (n + 1 - length ws) in
         map (pair w) p ++ map (pair (hd [] p)) (tl p)
  end.

Lemma fill_enough ws toks : length ws <= length toks ->
  fill ws toks = (firstn (length ws) toks, skipn (length ws) toks).
Proof.
  revert toks; induction ws as [|w ws IH]; intros [|t toks] H; simpl in *; auto; try lia.
  rewrite IH by lia. reflexivity.
Qed.

Lemma fill_short ws toks : length toks <= length ws ->
  fill ws toks = (toks ++ skipn (length toks) ws, []).
Proof.
  revert toks; induction ws as [|w ws IH]; intros [|t toks] H; simpl in *; auto; try lia.
  rewrite IH by lia. reflexivity.
Qed.

Lemma map_repeat {A B} (f : A -> B) x n : map f (repeat x n) = repeat (f x) n.
Proof. induction n; simpl; congruence. Qed.

Lemma skipn_repeat {A} (x : A) k n : skipn k (repeat x n) = repeat x (n - k).
Proof. revert k; induction n as [|n IH]; intros [|k]; simpl; auto. Qed.

Lemma fc_run {St} (fn : callback St (gostring * gostring)) s n toks : 1 <= n ->
  Forall (fun w => w <> []) toks ->
  fc_finish fn (fc_loop (length toks + 2) fn s [] (repeat [] n) toks) =
  for_each fn s (fc_emitted n toks).
Proof.
  intros Hn Hne. destruct toks as [|w t].
  - simpl. rewrite post_fn_map. now rewrite map_repeat.
  - inversion Hne; subst. replace (length (w :: t) + 2) with (S (length t + 2)) by (cbn [length]; lia).
    cbn [fc_loop]. rewrite gseqb_refl.
    unfold fc_emitted. destruct (Nat.ltb_spec n (length (w :: t))) as [Hlt|Hge].
    + simpl in Hlt. rewrite fill_enough by (rewrite repeat_length; lia). rewrite repeat_length.
      rewrite post_fn_map.
      replace (length (w :: t) - n + 1) with (S (length t - n + 1)) by (cbn [length]; lia).
      cbn [window_pairs_upto]. rewrite for_each_app.
      destruct (for_each fn s (map (pair w) (firstn n t))) as [s' [u|e|]]; cbn [fc_finish]; auto.
      destruct n as [|n]; [lia|].
      rewrite (fc_loop_steady fn n).
      * rewrite firstn_skipn, skipn_length. do 3 f_equal. lia.
      * auto.
      * rewrite firstn_length. lia.
      * rewrite skipn_length. lia.
      * apply Forall_forall. intros x Hx. apply firstn_In in Hx || idtac.
        rewrite Forall_forall in H2. apply H2. rewrite <- (firstn_skipn (S n) t). apply in_or_app; auto.
      * apply Forall_forall. intros x Hx.
        rewrite Forall_forall in H2. apply H2. rewrite <- (firstn_skipn (S n) t). apply in_or_app; auto.
    + simpl in Hge. rewrite fill_short by (rewrite repeat_length; lia).
      rewrite skipn_repeat. replace (n + 1 - length (w :: t)) with (n - length t) by (cbn [length]; lia).
      set (p := t ++ repeat [] (n - length t)).
      rewrite post_fn_map, for_each_app.
      destruct (for_each fn s (map (pair w) p)) as [s' [u|e|]]; cbn [fc_finish]; auto.
      assert (Hp : length p = n) by (unfold p; rewrite app_length, repeat_length; lia).
      replace (length t + 2) with (S (length t + 1)) by lia. cbn [fc_loop].
      destruct (gseqb_spec w []); [congruence|].
      destruct p as [|p0 p']; [simpl in Hp; lia|]. cbn [fc_finish hd tl].
      apply post_fn_map.
Qed.

Lemma forward_context_lemma St (fn : callback St (gostring * gostring)) s r n all :
  tokens (rd_data r) all -> rd_err r = false -> Forall (fun w => (Z.of_nat (length w) <= 65533)%Z) all ->
  1 <= n ->
  read_word_with_forward_context r (Z.of_nat n) fn s = for_each fn s (fc_emitted n all).
Proof.
  intros Ht Hr Hs Hn. unfold read_word_with_forward_context.
  destruct (Z.ltb_spec (Z.of_nat n) 0); [lia|].
  rewrite (scanner_fits _ _ Ht Hs), Hr. rewrite Nat2Z.id.
  assert (Hne : Forall (fun w : gostring => w <> []) all).
  { apply tokens_words in Ht. eapply Forall_impl; [|exact Ht]. simpl; tauto. }
  rewrite <- (fc_run fn s n all Hn Hne).
  destruct (fc_loop _ fn s [] _ all) as [s' [[axis ws]|e|]]; cbn [fc_finish]; auto.
  destruct (post_fn fn s' axis ws) as [s'' [[]|e|]]; auto.
Qed.

Lemma window_upto_split {A} k n (ws : list A) :
  window_pairs n ws = window_pairs_upto k n ws ++ window_pairs n (skipn k ws).
Proof.
  revert ws; induction k as [|k IH]; intros [|w t]; simpl; auto.
  rewrite <- app_assoc. now rewrite <- IH.
Qed.

(** Number of pairs in a window over a document no longer than the window. *)
Lemma window_pairs_short {A} n (ws : list A) : length ws <= S n ->
  2 * length (window_pairs n ws) = length ws * (length ws - 1).
Proof.
  induction ws as [|w t IH]; intros H; [reflexivity|].
  cbn [window_pairs length] in *.
  rewrite app_length, map_length, firstn_length, Nat.min_r by lia.
  assert (IH' := IH ltac:(lia)). destruct (length t) as [|m]; [lia|].
  replace (S (S m) - 1) with (S m) by lia. replace (S m - 1) with m in IH' by lia. nia.
Qed.

Lemma window_all {A} n (ws : list A) : n <= 2 -> n < length ws ->
  window_pairs_upto (length ws - n + 1) n ws = window_pairs n ws.
Proof.
  intros Hn Hl. rewrite (window_upto_split (length ws - n + 1) n ws).
  set (r := skipn (length ws - n + 1) ws).
  assert (Hr : length r <= n - 1) by (unfold r; rewrite skipn_length; lia).
  destruct r as [|x [|y r]]; simpl in *; [now rewrite app_nil_r| |lia].
  rewrite firstn_nil. simpl. now rewrite app_nil_r.
Qed.

Lemma forward_context_long St (fn : callback St (gostring * gostring)) s r n all :
  tokens (rd_data r) all -> rd_err r = false -> Forall (fun w => (Z.of_nat (length w) <= 65533)%Z) all ->
  1 <= n < length all ->
  read_word_with_forward_context r (Z.of_nat n) fn s =
  for_each fn s (window_pairs_upto (length all - n + 1) n all).
Proof.
  intros Ht Hr Hs Hn. rewrite (forward_context_lemma St fn s r n all Ht Hr Hs) by lia.
  destruct all as [|w t]; [simpl in Hn; lia|]. unfold fc_emitted.
  destruct (Nat.ltb_spec n (length (w :: t))); [reflexivity|lia].
Qed.

Lemma forward_context_short St (fn : callback St (gostring * gostring)) s r n w t :
  tokens (rd_data r) (w :: t) -> rd_err r = false -> Forall (fun w => (Z.of_nat (length w) <= 65533)%Z) (w :: t) ->
  length (w :: t) <= n ->
  exists p0 p, t ++ repeat [] (n + 1 - length (w :: t)) = p0 :: p /\
  read_word_with_forward_context r (Z.of_nat n) fn s =
  for_each fn s (map (pair w) (p0 :: p) ++ map (pair p0) p).
Proof.
  intros Ht Hr Hs Hn. rewrite (forward_context_lemma St fn s r n _ Ht Hr Hs) by (simpl in Hn; lia).
  unfold fc_emitted. destruct (Nat.ltb_spec n (length (w :: t))); [lia|].
  destruct (t ++ repeat [] (n + 1 - length (w :: t))) as [|p0 p] eqn:E.
  - exfalso. apply (f_equal (@length _)) in E. rewrite app_length, repeat_length in E. simpl in *. lia.
  - exists p0, p. auto.
Qed.

Lemma forward_context_loss {A} n (all : list A) : 1 <= n < length all ->
  exists lost,
    window_pairs n all = window_pairs_upto (length all - n + 1) n all ++ lost /\
    lost = window_pairs n (skipn (length all - n + 1) all) /\
    2 * length lost = (n - 1) * (n - 2) /\
    (lost = [] <-> n <= 2).
Proof.
  intros Hn. eexists. split; [apply window_upto_split|]. split; [reflexivity|].
  assert (L : 2 * length (window_pairs n (skipn (length all - n + 1) all)) = (n - 1) * (n - 2)).
  { rewrite window_pairs_short; rewrite skipn_length; [|lia].
    replace (length all - (length all - n + 1)) with (n - 1) by lia.
    replace (n - 1 - 1) with (n - 2) by lia. reflexivity. }
  split; [exact L|].
  split.
  - intros E. rewrite E in L. simpl in L. nia.
  - intros H. destruct (window_pairs n (skipn (length all - n + 1) all)); auto.
    simpl in L. exfalso. assert (n = 1 \/ n = 2) as [->| ->] by lia; simpl in L; lia.
Qed.

Lemma forward_context_degenerate St (fn : callback St (gostring * gostring)) s r :
  (tokens (rd_data r) [] -> rd_err r = false -> forall n, read_word_with_forward_context r (Z.of_nat n) fn s =
      for_each fn s (repeat ([], []) n)) /\
  (forall w t, tokens (rd_data r) (w :: t) -> Forall (fun w => (Z.of_nat (length w) <= 65533)%Z) (w :: t) ->
      read_word_with_forward_context r 0 fn s = (s, Panic)) /\
  (forall z, (z < 0)%Z -> read_word_with_forward_context r z fn s = (s, Panic)).
Proof.
  split; [|split].
  - intros Ht Hr n. unfold read_word_with_forward_context.
    destruct (Z.ltb_spec (Z.of_nat n) 0); [lia|].
    rewrite (scanner_fits r [] Ht), Hr by constructor. rewrite Nat2Z.id. simpl.
    rewrite post_fn_map, map_repeat. destruct (for_each fn s _) as [s' [[]|e|]]; auto.
  - intros w t Ht Hs. unfold read_word_with_forward_context. simpl (0 <? 0)%Z. cbn iota.
    rewrite (scanner_fits r _ Ht Hs).
    assert (Hne := tokens_words _ _ Ht). inversion Hne as [|? ? [Hw _] _]; subst.
    replace (length (w :: t) + 2) with (S (S (length t + 1))) by (simpl; lia).
    cbn [Z.to_nat repeat fc_loop]. rewrite gseqb_refl.
    destruct t; cbn [fill post_fn for_each fc_loop]; destruct (gseqb_spec w []); try congruence; reflexivity.
  - intros z Hz. unfold read_word_with_forward_context.
    destruct (Z.ltb_spec z 0); [reflexivity|lia].
Qed.
