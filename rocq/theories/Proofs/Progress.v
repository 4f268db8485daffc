(** * Facts about the progress reports *)
From Coq Require Import Permutation.
From Verif.Lib Require Import Go F64 ListFacts Tac.
From Verif.Spec Require Import Words Tokens Window Rows Saved Sched Progress.
From Verif.Model Require Import Dictionary Encode Cooc Reader Corpus Matrix Glove Lexvec FmtFloat Vector Sched Run Progress.
From Verif.Proofs Require Import Dictionary Reader Corpus.
From Verif.Proofs Require Sched SchedRun Run Vector.
Local Open Scope Z_scope.

(** ** The lines *)
Definition marks (verbose : bool) verb noun lb n : list line := if verbose then milestones verb noun lb n else [].

Lemma rem_divides n lb : lb <> 0 -> (Z.rem (Z.of_nat n) lb =? 0) = ((n mod Z.to_nat (Z.abs lb)) =? 0)%nat.
Proof.
  intros H. rewrite <- Z.rem_abs_r by auto. rewrite Z.rem_mod_nonneg by lia.
  set (m := Z.to_nat (Z.abs lb)). replace (Z.abs lb) with (Z.of_nat m) by (unfold m; lia).
  rewrite <- Nat2Z.inj_mod. destruct (Nat.eqb_spec (n mod m) 0) as [E|E]; [rewrite E; reflexivity|].
  apply Z.eqb_neq. lia.
Qed.

Lemma milestones_S verb noun lb n : lb <> 0 -> milestones verb noun lb (S n) =
  milestones verb noun lb n ++ (if Z.rem (Z.of_nat (S n)) lb =? 0 then [Line verb noun (Z.of_nat (S n)) false] else []).
Proof.
  intros H. rewrite rem_divides by auto. unfold milestones. set (m := Z.to_nat (Z.abs lb)).
  assert (Hm : (m <> 0)%nat) by (unfold m; lia).
  assert (Ea : Z.abs lb = Z.of_nat m) by (unfold m; lia). rewrite Ea.
  pose proof (Nat.div_mod (S n) m Hm) as D1. pose proof (Nat.div_mod n m Hm) as D2.
  pose proof (Nat.mod_upper_bound (S n) m Hm) as U1. pose proof (Nat.mod_upper_bound n m Hm) as U2.
  destruct (Nat.eqb_spec (S n mod m) 0) as [E|E].
  - assert (Q : (S n / m = S (n / m))%nat) by nia.
    rewrite Q, seq_S, map_app. cbn [map]. do 2 f_equal. f_equal. rewrite Q in D1. nia.
  - assert (Q : (S n / m = n / m)%nat) by nia. rewrite Q, app_nil_r. reflexivity.
Qed.

Section Marks.
Variables (verbose : bool) (lb : Z).
Hypothesis Hlb : verbose = false \/ lb <> 0.

Lemma tell_marks verb noun n base :
  tell verbose lb verb noun (Z.of_nat (S n)) (base ++ marks verbose verb noun lb n) =
  (base ++ marks verbose verb noun lb (S n), Ret tt).
Proof.
  unfold tell, marks. destruct verbose; [|reflexivity]. destruct Hlb as [H|H]; [discriminate|].
  destruct (Z.eqb_spec lb 0); [contradiction|]. rewrite milestones_S by auto.
  destruct (Z.rem _ lb =? 0); rewrite ?app_nil_r, <- ?app_assoc; reflexivity.
Qed.

Lemma tell_end_marks verb noun n base : tell_end verbose verb noun (Z.of_nat n) (base ++ marks verbose verb noun lb n) =
  base ++ (if verbose then announced verb noun lb n else []).
Proof. unfold tell_end, marks, announced. destruct verbose; [rewrite <- app_assoc|]; reflexivity. Qed.

Lemma marks_0 verb noun : marks verbose verb noun lb 0 = [].
Proof. unfold marks, milestones. destruct verbose; [|reflexivity]. destruct (Z.to_nat (Z.abs lb)); reflexivity. Qed.

(** The word pass. *)
Lemma words_marks (f : callback corpus gostring) :
  (forall c w, c_len (fst (f c w)) = S (c_len c) /\ snd (f c w) = Ret tt) ->
  forall ws c base,
  for_each (print_word verbose lb f) (c, base ++ marks verbose "read" "words" lb (c_len c)) ws =
  let c' := fst (for_each f c ws) in ((c', base ++ marks verbose "read" "words" lb (c_len c')), Ret tt).
Proof.
  intros Hf. induction ws as [|w ws IH]; intros c base; [reflexivity|]. cbv zeta. cbn [for_each]. unfold print_word at 1.
  destruct (Hf c w) as (H1 & H2). destruct (f c w) as [c1 o1]. cbn [fst snd] in H1, H2. subst o1.
  rewrite H1, tell_marks. rewrite <- H1. apply IH.
Qed.

(** The pair pass. *)
Lemma add_marks l : forall co k base,
  exists co' k', for_each (print_add verbose lb) (co, k, base ++ marks verbose "read" "tuples" lb k) l =
    ((co', k', base ++ marks verbose "read" "tuples" lb k'),
     snd (for_each (fun c p => co_add c (Z.of_nat (fst p)) (Z.of_nat (snd p))) co l)) /\
    (snd (for_each (fun c p => co_add c (Z.of_nat (fst p)) (Z.of_nat (snd p))) co l) = Ret tt -> k' = (k + length l)%nat) /\
    co' = fst (for_each (fun c p => co_add c (Z.of_nat (fst p)) (Z.of_nat (snd p))) co l).
Proof.
  induction l as [|p l IH]; intros co k base.
  - exists co, k. split; [reflexivity|]. split; [cbn; lia|reflexivity].
  - cbn [for_each]. unfold print_add at 1. destruct (co_add co (Z.of_nat (fst p)) (Z.of_nat (snd p))) as [co1 [u|e|]].
    + rewrite tell_marks. destruct (IH co1 (S k) base) as (co' & k' & E & H & H'). exists co', k'. split; [exact E|]. split; [|exact H'].
      intros R. rewrite (H R). cbn [length]. lia.
    + exists co1, k. split; [reflexivity|]. split; [discriminate|reflexivity].
    + exists co1, k. split; [reflexivity|]. split; [discriminate|reflexivity].
Qed.
End Marks.

(** ** The loops of the in-memory pair pass *)
Lemma print_inner_run verbose lb win idoc i : forall fuel j s, (length idoc - j <= fuel)%nat ->
  print_inner verbose lb fuel win idoc i j s =
  for_each (print_add verbose lb) s
    (map (pair (nth i idoc 0%nat)) (firstn (Z.to_nat (Z.of_nat i + win + 1 - Z.of_nat j)) (skipn j idoc))).
Proof.
  induction fuel as [|fuel IH]; intros j s Hf.
  - rewrite (skipn_all2 idoc) by lia. rewrite firstn_nil. reflexivity.
  - cbn [print_inner]. destruct (Nat.ltb_spec j (length idoc)) as [Hj|Hj]; cbn [andb].
    + assert (Esk : skipn j idoc = nth j idoc 0%nat :: skipn (S j) idoc).
      { clear -Hj. revert j Hj. induction idoc as [|x l IH]; intros [|j] Hj; simpl in *; try lia; auto. apply IH. lia. }
      rewrite Esk. destruct (Z.leb_spec (Z.of_nat j) (Z.of_nat i + win)) as [Hw|Hw].
      * replace (Z.to_nat (Z.of_nat i + win + 1 - Z.of_nat j))
          with (S (Z.to_nat (Z.of_nat i + win + 1 - Z.of_nat (S j)))) by lia.
        cbn [firstn map for_each]. destruct (print_add verbose lb s _) as [s' [u|e|]]; auto. apply IH. lia.
      * replace (Z.to_nat (Z.of_nat i + win + 1 - Z.of_nat j)) with 0%nat by lia. reflexivity.
    + rewrite (skipn_all2 idoc) by lia. rewrite firstn_nil. reflexivity.
Qed.

Lemma print_outer_run verbose lb win idoc s :
  print_outer verbose lb win idoc s = for_each (print_add verbose lb) s (window_pairs (Z.to_nat win) idoc).
Proof.
  unfold print_outer.
  assert (G : forall suf pre s, pre ++ suf = idoc ->
     for_each (fun s i => print_inner verbose lb (length idoc) win idoc i (S i) s) s (seq (length pre) (length suf)) =
     for_each (print_add verbose lb) s (window_pairs (Z.to_nat win) suf)).
  { induction suf as [|x suf IH]; intros pre s0 E; [reflexivity|].
    cbn [length seq for_each window_pairs]. rewrite for_each_app. rewrite print_inner_run by lia.
    replace (Z.of_nat (length pre) + win + 1 - Z.of_nat (S (length pre))) with win by lia.
    assert (E1 : nth (length pre) idoc 0%nat = x) by (rewrite <- E, app_nth2, Nat.sub_diag by lia; reflexivity).
    assert (E2 : skipn (S (length pre)) idoc = suf).
    { rewrite <- E. replace (pre ++ x :: suf) with ((pre ++ [x]) ++ suf) by (rewrite <- app_assoc; reflexivity).
      replace (S (length pre)) with (length (pre ++ [x])) by (rewrite app_length; simpl; lia).
      now rewrite skipn_app, skipn_all, Nat.sub_diag. }
    rewrite E1, E2. destruct (for_each (print_add verbose lb) s0 _) as [s1 [u|e|]]; auto.
    specialize (IH (pre ++ [x]) s1). rewrite app_length in IH. cbn [length] in IH.
    rewrite Nat.add_1_r in IH. apply IH. rewrite <- app_assoc. exact E. }
  apply (G idoc []). reflexivity.
Qed.

(** ** Printing changes nothing else *)
Section Erase.
Context {S' S T : Type} (pi : S' -> S).

Definition erases {R} (a : S' * outcome R) (b : S * outcome R) : Prop := pi (fst a) = fst b /\ snd a = snd b.

Lemma for_each_erase (f : callback S' T) (g : callback S T) : (forall s x, erases (f s x) (g (pi s) x)) ->
  forall xs s, erases (for_each f s xs) (for_each g (pi s) xs).
Proof.
  intros H. induction xs as [|x xs IH]; intros s; [split; reflexivity|]. cbn [for_each].
  destruct (H s x) as (H1 & H2). destruct (f s x) as [s1 o1], (g (pi s) x) as [s2 o2]. cbn [fst snd] in H1, H2. subst s2 o2.
  destruct o1; [apply IH|split; reflexivity|split; reflexivity].
Qed.
End Erase.

Lemma read_word_erase {S' S} (pi : S' -> S) r (f : callback S' gostring) (g : callback S gostring) :
  (forall s x, erases pi (f s x) (g (pi s) x)) -> forall s, erases pi (read_word r f s) (read_word r g (pi s)).
Proof.
  intros H s. unfold read_word. destruct (scanner (rd_seek0 r)) as [ws err].
  destruct (for_each_erase pi f g H ws s) as (H1 & H2).
  destruct (for_each f s ws) as [s1 o1], (for_each g (pi s) ws) as [s2 o2]. cbn [fst snd] in H1, H2. subst s2 o2.
  destruct o1; split; reflexivity.
Qed.

Section EraseFc.
Context {S' S : Type} (pi : S' -> S) (f : callback S' (gostring * gostring)) (g : callback S (gostring * gostring)).
Hypothesis H : forall s x, erases pi (f s x) (g (pi s) x).

Lemma post_fn_erase axis ws s : erases pi (post_fn f s axis ws) (post_fn g (pi s) axis ws).
Proof. unfold post_fn. apply for_each_erase. intros s0 x. apply H. Qed.

Lemma fc_loop_erase : forall fuel s axis ws toks,
  erases pi (fc_loop fuel f s axis ws toks) (fc_loop fuel g (pi s) axis ws toks).
Proof.
  induction fuel as [|fuel IH]; intros s axis ws toks; [split; reflexivity|]. cbn [fc_loop].
  destruct (gseqb axis []).
  - destruct toks as [|t toks]; [split; reflexivity|]. destruct (fill ws toks) as [ws1 rest].
    destruct (post_fn_erase t ws1 s) as (H1 & H2).
    destruct (post_fn f s t ws1) as [s1 o1], (post_fn g (pi s) t ws1) as [s2 o2]. cbn [fst snd] in H1, H2. subst s2 o2.
    destruct o1; [apply IH|split; reflexivity|split; reflexivity].
  - destruct ws as [|w0 ws]; [split; reflexivity|]. destruct toks as [|t toks]; [split; reflexivity|].
    destruct (post_fn_erase w0 (ws ++ [t]) s) as (H1 & H2).
    destruct (post_fn f s w0 (ws ++ [t])) as [s1 o1], (post_fn g (pi s) w0 (ws ++ [t])) as [s2 o2]. cbn [fst snd] in H1, H2. subst s2 o2.
    destruct o1; [apply IH|split; reflexivity|split; reflexivity].
Qed.

Lemma forward_erase r n s :
  erases pi (read_word_with_forward_context r n f s) (read_word_with_forward_context r n g (pi s)).
Proof.
  unfold read_word_with_forward_context. destruct (n <? 0); [split; reflexivity|].
  destruct (scanner (rd_seek0 r)) as [toks err].
  destruct (fc_loop_erase (length toks + 2) s [] (repeat [] (Z.to_nat n)) toks) as (H1 & H2).
  destruct (fc_loop _ f s _ _ toks) as [s1 o1], (fc_loop _ g (pi s) _ _ toks) as [s2 o2]. cbn [fst snd] in H1, H2. subst s2 o2.
  destruct o1 as [[axis ws]| |]; [|split; reflexivity|split; reflexivity].
  destruct (post_fn_erase axis ws s1) as (H1 & H2).
  destruct (post_fn f s1 axis ws) as [s3 o3], (post_fn g (pi s1) axis ws) as [s4 o4]. cbn [fst snd] in H1, H2. subst s4 o4.
  destruct o3; split; reflexivity.
Qed.
End EraseFc.

Lemma tell_report verbose lb verb noun n out : snd (tell verbose lb verb noun n out) = report verbose lb.
Proof. unfold tell, report. destruct verbose; [|reflexivity]. destruct (lb =? 0); [reflexivity|]. destruct (Z.rem n lb =? 0); reflexivity. Qed.

Definition co_of (s : cooc * nat * list line) : cooc := fst (fst s).

Lemma print_word_erase verbose lb (f g : callback corpus gostring) :
  (forall c w, fst (f c w) = fst (g c w) /\ snd (g c w) = report verbose lb) ->
  forall s w, erases (@fst corpus (list line)) (print_word verbose lb f s w) (g (fst s) w).
Proof.
  intros H (c & out) w. unfold print_word. cbn [fst]. destruct (H c w) as (H1 & H2). destruct (f c w) as [c1 o1].
  pose proof (tell_report verbose lb "read" "words" (Z.of_nat (c_len c1)) out) as HT.
  destruct (tell _ _ _ _ _ out) as [out' o]. cbn [fst snd] in *. split; cbn [fst snd]; congruence.
Qed.

Lemma print_add_erase verbose lb s p : erases co_of (print_add verbose lb s p) (add_ids verbose lb (co_of s) p).
Proof.
  destruct s as ((co & k) & out). unfold print_add, add_ids, co_of. cbn [fst snd].
  destruct (co_add co _ _) as [co1 [u|e|]]; [|split; reflexivity|split; reflexivity].
  pose proof (tell_report verbose lb "read" "tuples" (Z.of_nat (S k)) out) as HT.
  destruct (tell _ _ _ _ _ out) as [out' o]. cbn [snd] in HT. subst o. split; reflexivity.
Qed.

Lemma load_erase verbose lb first first' second second' :
  (forall c w, fst (first c w) = fst (first' c w) /\ snd (first' c w) = report verbose lb) ->
  (forall (c : corpus) win s, erases co_of (second c win s) (second' c win (co_of s))) ->
  forall c w, erases (@fst corpus (list line)) (print_load verbose lb first second c w)
    (match read_word (c_doc c) first' c with
    | (c, Ret _) =>
      match w with
      | None => (c, Ret tt)
      | Some w =>
        match co_new (w_type w) with
        | Ret co => let (co', o) := second' c (w_window w) co in (set_cooc c (Some co'), o)
        | Err e => (set_cooc c None, Err e)
        | Panic => (c, Panic)
        end
      end
    | res => res
    end).
Proof.
  intros H1 H2 c w. unfold print_load.
  destruct (read_word_erase _ (c_doc c) _ _ (print_word_erase verbose lb first first' H1) (c, [])) as (E1 & E2). cbn [fst] in E1, E2.
  destruct (read_word _ (print_word verbose lb first) _) as [[c1 out1] o1], (read_word _ first' c) as [c2 o2].
  cbn [fst snd] in E1, E2. subst c2 o2. destruct o1 as [u|e|]; [|split; reflexivity|split; reflexivity].
  destruct w as [w|]; [|split; reflexivity]. destruct (co_new (w_type w)) as [co|e|]; [|split; reflexivity|split; reflexivity].
  match goal with |- context [second c1 _ ?s] => destruct (H2 c1 (w_window w) s) as (E1 & E2); unfold co_of in E1, E2; cbn [fst] in E1, E2 end.
  destruct (second c1 _ _) as [[[co1 k] out2] o1], (second' c1 _ _) as [co2 o2]. cbn [fst snd] in E1, E2. subst co2 o2.
  destruct o1 as [[]|e|]; split; reflexivity.
Qed.

Lemma mem_word_erase lower verbose lb c w :
  fst (mem_load_word lower false 0 c w) = fst (mem_load_word lower verbose lb c w) /\ snd (mem_load_word lower verbose lb c w) = report verbose lb.
Proof. unfold mem_load_word. cbv zeta. destruct (dict_id _ _) as [id o]. split; reflexivity. Qed.

Lemma fs_word_erase lower verbose lb c w :
  fst (fs_load_word lower false 0 c w) = fst (fs_load_word lower verbose lb c w) /\ snd (fs_load_word lower verbose lb c w) = report verbose lb.
Proof. split; reflexivity. Qed.

Lemma mem_load_erase lower verbose lb c w :
  erases (@fst corpus (list line)) (print_mem_load verbose lb lower c w) (mem_load lower verbose lb c w).
Proof.
  unfold print_mem_load, mem_load.
  refine (load_erase verbose lb _ (mem_load_word lower verbose lb) _ (fun c win co => mem_outer verbose lb win (c_idoc c) co) (mem_word_erase lower verbose lb) _ c w).
  intros c0 win s. rewrite print_outer_run, mem_outer_run. apply for_each_erase. intros s0 p. apply print_add_erase.
Qed.

Lemma fs_load_erase lower verbose lb c w :
  erases (@fst corpus (list line)) (print_fs_load verbose lb lower c w) (fs_load lower verbose lb c w).
Proof.
  unfold print_fs_load, fs_load.
  refine (load_erase verbose lb _ (fs_load_word lower verbose lb) _
           (fun c win co => read_word_with_forward_context (c_doc c) win (fs_pair verbose lb (c_dic c)) co) (fs_word_erase lower verbose lb) _ c w).
  intros c0 win s. apply forward_erase. intros s0 p. unfold print_fs_pair, fs_pair.
  destruct (dict_id _ (fst p)) as [i1 o1], (dict_id _ (snd p)) as [i2 o2]. apply print_add_erase.
Qed.

(** ** What Load prints *)
Lemma mem_word_one lower c w : c_len (fst (mem_load_word lower false 0 c w)) = S (c_len c) /\ snd (mem_load_word lower false 0 c w) = Ret tt.
Proof. unfold mem_load_word. cbv zeta. destruct (dict_id _ _) as [id o]. split; reflexivity. Qed.
Lemma fs_word_one lower c w : c_len (fst (fs_load_word lower false 0 c w)) = S (c_len c) /\ snd (fs_load_word lower false 0 c w) = Ret tt.
Proof. split; reflexivity. Qed.

Definition said (verbose : bool) verb noun lb n : list line := if verbose then announced verb noun lb n else [].

Lemma load_lines verbose lb first second (c : corpus) w all :
  verbose = false \/ lb <> 0 -> c_len c = 0%nat ->
  (forall c w, c_len (fst (first c w)) = S (c_len c) /\ snd (first c w) = Ret tt) ->
  tokens (rd_data (c_doc c)) all -> rd_err (c_doc c) = false -> fits all ->
  let c1 := fst (for_each first c all) in
  c_len c1 = length all ->
  print_load verbose lb first second c w =
  let out := said verbose "read" "words" lb (length all) in
  match w with
  | None => ((c1, out), Ret tt)
  | Some w =>
    match co_new (w_type w) with
    | Ret co =>
      match second c1 (w_window w) (co, 0%nat, out) with
      | ((co', cursor, out'), Ret _) => ((set_cooc c1 (Some co'), tell_end verbose "read" "tuples" (Z.of_nat cursor) out'), Ret tt)
      | ((co', _, out'), o) => ((set_cooc c1 (Some co'), out'), o)
      end
    | Err e => ((set_cooc c1 None, out), Err e)
    | Panic => ((c1, out), Panic)
    end
  end.
Proof.
  intros Hlb H0 Hf Ht He Hfit c1 HL. unfold print_load.
  rewrite (read_word_fits _ _ _ _ Ht He Hfit).
  pose proof (words_marks verbose lb Hlb first Hf all c []) as HW. cbn [app] in HW. rewrite H0, marks_0 in HW by exact Hlb. rewrite HW. cbv zeta.
  fold c1. rewrite HL. pose proof (tell_end_marks verbose lb Hlb "read"%string "words"%string (length all) []) as HE. cbn [app] in HE. rewrite HE. reflexivity.
Qed.

Lemma pairs_lines verbose lb l co base co1 : verbose = false \/ lb <> 0 ->
  for_each (fun c p => co_add c (Z.of_nat (fst p)) (Z.of_nat (snd p))) co l = (co1, Ret tt) ->
  for_each (print_add verbose lb) (co, 0%nat, base) l = ((co1, length l, base ++ marks verbose "read" "tuples" lb (length l)), Ret tt).
Proof.
  intros Hlb H. destruct (add_marks verbose lb Hlb l co 0 base) as (co' & k' & E & Ek & Ec). rewrite marks_0, app_nil_r in E by exact Hlb.
  rewrite E. rewrite H in *. cbn [fst snd] in *. subst co'. rewrite (Ek eq_refl). reflexivity.
Qed.

Lemma mem_lines lower verbose lb doc lc maxc minc all w c1 :
  verbose = false \/ lb <> 0 -> tokens (rd_data doc) all -> rd_err doc = false -> fits all ->
  mem_load lower verbose lb (corpus_new doc lc maxc minc) w = (c1, Ret tt) ->
  print_mem_load verbose lb lower (corpus_new doc lc maxc minc) w =
  ((c1, said verbose "read" "words" lb (length all) ++
        match w with None => [] | Some w => said verbose "read" "tuples" lb (length (window_pairs (Z.to_nat (w_window w)) all)) end), Ret tt).
Proof.
  intros Hlb Ht He Hf HM. destruct (mem_load_erase lower verbose lb (corpus_new doc lc maxc minc) w) as (E1 & E2). rewrite HM in E1, E2. cbn [fst snd] in E1, E2.
  assert (Hrep : report false 0 = Ret tt) by reflexivity.
  assert (HF : for_each (mem_load_word lower false 0) (corpus_new doc lc maxc minc) all = (fresh_loaded lower doc lc maxc minc all true, Ret tt)).
  { rewrite <- (mem_first lower false 0 doc lc maxc minc all Hrep Ht He Hf). symmetry. apply read_word_fits; auto. }
  unfold print_mem_load in *. rewrite (load_lines verbose lb _ _ (corpus_new doc lc maxc minc) w all Hlb eq_refl (mem_word_one lower) Ht He Hf) in * by (rewrite HF; reflexivity).
  rewrite HF in *. cbn [fst] in *. cbv zeta in *. destruct w as [w|].
  - destruct (co_new (w_type w)) as [co|e|] eqn:Ec; [|discriminate E2|discriminate E2].
    rewrite print_outer_run in *. set (base := said verbose "read" "words" lb (length all)) in *.
    destruct (add_marks verbose lb Hlb (window_pairs (Z.to_nat (w_window w)) (c_idoc (fresh_loaded lower doc lc maxc minc all true))) co 0 base) as (co' & k' & E & Ek & _).
    rewrite marks_0, app_nil_r in E by exact Hlb. rewrite E in *.
    match type of E with _ = (_, ?o) => destruct o as [[]|e|] eqn:Eo; [|discriminate E2|discriminate E2] end.
    cbn [fst snd] in *. subst c1. rewrite (Ek eq_refl). rewrite tell_end_marks by auto. do 3 f_equal. unfold said. destruct verbose; [|reflexivity]. f_equal.
    unfold fresh_loaded. cbn [c_idoc]. rewrite window_pairs_map, map_length, window_pairs_map, map_length. reflexivity.
  - cbn [fst] in E1. subst c1. rewrite app_nil_r. reflexivity.
Qed.

Lemma fs_add_run verbose lb d : forall l s, for_each (print_fs_pair verbose lb d) s l =
  for_each (print_add verbose lb) s (map (fun p => (fst (dict_id d (fst p)), fst (dict_id d (snd p)))) l).
Proof.
  induction l as [|[a b] l IH]; intros s; [reflexivity|]. cbn [for_each map fst snd]. unfold print_fs_pair at 1. cbn [fst snd].
  destruct (dict_id d a) as [i1 o1], (dict_id d b) as [i2 o2]. cbn [fst]. destruct (print_add verbose lb s (i1, i2)) as [s1 [u|e|]]; auto.
Qed.

Lemma fs_lines lower verbose lb doc lc maxc minc all w c1 :
  verbose = false \/ lb <> 0 -> tokens (rd_data doc) all -> rd_err doc = false -> fits all ->
  match w with None => True | Some w => 1 <= w_window w end ->
  fs_load lower verbose lb (corpus_new doc lc maxc minc) w = (c1, Ret tt) ->
  print_fs_load verbose lb lower (corpus_new doc lc maxc minc) w =
  ((c1, said verbose "read" "words" lb (length all) ++
        match w with None => [] | Some w => said verbose "read" "tuples" lb (length (fc_emitted (Z.to_nat (w_window w)) all)) end), Ret tt).
Proof.
  intros Hlb Ht He Hf Hw HM. destruct (fs_load_erase lower verbose lb (corpus_new doc lc maxc minc) w) as (E1 & E2). rewrite HM in E1, E2. cbn [fst snd] in E1, E2.
  assert (Hrep : report false 0 = Ret tt) by reflexivity.
  assert (HF : for_each (fs_load_word lower false 0) (corpus_new doc lc maxc minc) all = (fresh_loaded lower doc lc maxc minc all false, Ret tt)).
  { rewrite <- (fs_first lower false 0 doc lc maxc minc all Hrep Ht He Hf). symmetry. apply read_word_fits; auto. }
  unfold print_fs_load in *. rewrite (load_lines verbose lb _ _ (corpus_new doc lc maxc minc) w all Hlb eq_refl (fs_word_one lower) Ht He Hf) in * by (rewrite HF; reflexivity).
  rewrite HF in *. cbn [fst] in *. cbv zeta in *. destruct w as [w|].
  - destruct (co_new (w_type w)) as [co|e|] eqn:Ec; [|discriminate E2|discriminate E2].
    set (cl := fresh_loaded lower doc lc maxc minc all false) in *. change (c_doc cl) with doc in *.
    rewrite <- (Z2Nat.id (w_window w)) in E1, E2 |- * by lia.
    rewrite (forward_context_lemma _ _ _ doc (Z.to_nat (w_window w)) all Ht He Hf) in * by lia. rewrite Nat2Z.id.
    rewrite fs_add_run in *. set (base := said verbose "read" "words" lb (length all)) in *.
    destruct (add_marks verbose lb Hlb (map (fun p => (fst (dict_id (c_dic cl) (fst p)), fst (dict_id (c_dic cl) (snd p)))) (fc_emitted (Z.to_nat (w_window w)) all)) co 0 base) as (co' & k' & E & Ek & _).
    rewrite marks_0, app_nil_r in E by exact Hlb. rewrite E in *.
    match type of E with _ = (_, ?o) => destruct o as [[]|e|] eqn:Eo; [|discriminate E2|discriminate E2] end.
    cbn [fst snd] in *. subst c1. rewrite (Ek eq_refl). rewrite tell_end_marks by auto. rewrite map_length. reflexivity.
  - cbn [fst] in E1. subst c1. rewrite app_nil_r. reflexivity.
Qed.

(** ** Items *)
Lemma glv_items_lines flog fpow xmax alpha verbose lb : verbose = false \/ lb <> 0 -> forall em idx base,
  print_glv_items verbose lb flog fpow xmax alpha em idx (base ++ marks verbose "build" "items" lb idx) =
  (base ++ said verbose "build" "items" lb (idx + length em), make_items flog fpow xmax alpha verbose lb em).
Proof.
  intros Hlb. induction em as [|kv em IH]; intros idx base; cbn [print_glv_items make_items].
  - rewrite tell_end_marks, Nat.add_0_r by exact Hlb. reflexivity.
  - rewrite tell_marks by auto. rewrite IH. cbn [length].
    replace (verbose && (lb =? 0)) with false by (destruct Hlb as [->|Hlb]; [reflexivity|]; destruct (Z.eqb_spec lb 0); [lia|]; destruct verbose; reflexivity).
    replace (idx + S (length em))%nat with (S idx + length em)%nat by lia. reflexivity.
Qed.

Lemma lxv_items_lines flog fpow d typ smooth logTotal verbose lb : verbose = false \/ lb <> 0 -> forall em res idx base,
  exists out, print_lxv_items verbose lb flog fpow d typ smooth logTotal em res idx (base ++ marks verbose "build" "items" lb idx) =
    (out, make_items_loop flog fpow d typ smooth logTotal verbose lb em res) /\
  ((exists items, make_items_loop flog fpow d typ smooth logTotal verbose lb em res = Ret items) ->
   out = base ++ said verbose "build" "items" lb (idx + length em)).
Proof.
  intros Hlb. induction em as [|[enc f] em IH]; intros res idx base; cbn [print_lxv_items make_items_loop].
  - rewrite tell_end_marks, Nat.add_0_r by exact Hlb. eexists. split; [reflexivity|]. reflexivity.
  - destruct (decode_bigram enc) as [u1 u2]. destruct (calculate_relation _ _ _ _ _ _ _ _ _) as [v|e|]; cbn [obind].
    + rewrite tell_marks by auto.
      replace (verbose && (lb =? 0)) with false by (destruct Hlb as [->|Hlb]; [reflexivity|]; destruct (Z.eqb_spec lb 0); [lia|]; destruct verbose; reflexivity).
      destruct (IH (mset Z.eq_dec enc v res) (S idx) base) as (out & E & H). exists out. split; [exact E|]. intros HI. rewrite (H HI).
      cbn [length]. replace (idx + S (length em))%nat with (S idx + length em)%nat by lia. reflexivity.
    + eexists. split; [reflexivity|]. intros (? & HH). discriminate HH.
    + eexists. split; [reflexivity|]. intros (? & HH). discriminate HH.
Qed.

(** ** Save *)
Definition save_marks (verbose : bool) lb n : list line :=
  if verbose then map (fun i => Line "saved" "words" (Z.of_nat i) false) (filter (fun i => (i mod Z.to_nat (Z.abs lb) =? 0)%nat) (seq 0 n)) else [].

Lemma tell_save verbose lb n : verbose = false \/ lb <> 0 ->
  tell verbose lb "saved" "words" (Z.of_nat n) (save_marks verbose lb n) = (save_marks verbose lb (S n), Ret tt).
Proof.
  intros Hlb. unfold tell, save_marks. destruct verbose; [|reflexivity]. destruct Hlb as [H|H]; [discriminate|].
  destruct (Z.eqb_spec lb 0); [contradiction|]. rewrite rem_divides by auto. rewrite seq_S, filter_app, map_app. cbn [plus filter].
  destruct (n mod _ =? 0)%nat; cbn [map]; rewrite ?app_nil_r; reflexivity.
Qed.

Lemma save_rows_lines verbose lb d m : verbose = false \/ lb <> 0 -> forall n i buf text,
  save_rows d m verbose lb n (Z.of_nat i) buf = Ret text ->
  print_save_rows verbose lb d m n (Z.of_nat i) buf (save_marks verbose lb i) = (save_marks verbose lb (i + n), Ret text).
Proof.
  intros Hlb. induction n as [|n IH]; intros i buf text H; cbn [save_rows print_save_rows] in *.
  - rewrite Nat.add_0_r. congruence.
  - destruct (dict_word d (Z.of_nat i)) as [[w o]|e|]; cbn [obind] in *; [|discriminate H|discriminate H].
    destruct (save_cells m (Z.of_nat i) _ 0 _) as [buf1|e|]; cbn [obind] in *; [|discriminate H|discriminate H].
    rewrite tell_save by auto.
    replace (verbose && (lb =? 0)) with false in H by (destruct Hlb as [->|Hlb']; [reflexivity|]; destruct (Z.eqb_spec lb 0); [lia|]; destruct verbose; reflexivity).
    replace (Z.of_nat i + 1) with (Z.of_nat (S i)) in * by lia. rewrite (IH (S i) _ text H). f_equal. f_equal. lia.
Qed.

Lemma save_lines_lemma {W} (wr : writer W) cut d m verbose lb st st' : verbose = false \/ lb <> 0 ->
  save wr cut d m verbose lb st = (st', Ret tt) ->
  print_save verbose lb wr cut d m st = ((st', if verbose then save_lines lb (dict_len d) else []), Ret tt).
Proof.
  intros Hlb. unfold save, print_save. destruct (negb _); [discriminate|].
  destruct (save_rows d m verbose lb (dict_len d) 0 []) as [text|e|] eqn:E; [|discriminate|discriminate]. intros H.
  pose proof (save_rows_lines verbose lb d m Hlb (dict_len d) 0 [] text E) as HP.
  replace (save_marks verbose lb 0) with (@nil line) in HP by (destruct verbose; reflexivity). change (Z.of_nat 0) with 0 in HP. rewrite HP.
  assert (bufio_write wr (cut text) st = st') as -> by congruence.
  unfold tell_end, save_marks, save_lines. cbn [plus]. destruct verbose; reflexivity.
Qed.

(** ** The observers *)
Section Talk.
Context {A X : Type}.
Variables (c : cfg) (E : effects A X) (iter : nat) (mk : nat -> source A) (verbose : bool) (lb : Z) (noun : string).
Hypothesis Hlb : verbose = false \/ lb <> 0.
Hypothesis Hmk : forall j, Run.src_ok (mk j).
Hypothesis Hiter : (1 <= iter)%nat.

(** What the observer of an iteration has said when it is at [o]. *)
Definition so_far (o : obspc) : list line :=
  match o with
  | ORecv n => marks verbose "trained" noun lb n
  | OBusy n => marks verbose "trained" noun lb (pred n)
  | OEnd n => said verbose "trained" noun lb n
  end.

Lemma says_same (o : obspc) : observer_says verbose lb noun o o = [].
Proof. destruct o; reflexivity. Qed.

Lemma step_so_far (s s' : st A) : step c s s' -> Run.busy_pos s ->
  so_far (obs s) ++ observer_says verbose lb noun (obs s) (obs s') = so_far (obs s').
Proof.
  intros HS HB. destruct HS; cbn [obs]; try (rewrite says_same, app_nil_r; reflexivity).
  - match goal with HO : obs s = _ |- _ => rewrite HO end. cbn [observer_says so_far pred]. apply app_nil_r.
  - match goal with HO : obs s = OBusy n |- _ => rewrite HO; pose proof (HB n HO) as Hn end. destruct n as [|n]; [lia|]. cbn [observer_says so_far pred].
    unfold tell, marks. destruct verbose; [|reflexivity]. destruct Hlb as [HX|HX]; [discriminate|]. destruct (Z.eqb_spec lb 0); [contradiction|].
    rewrite milestones_S by auto. destruct (Z.rem _ lb =? 0); reflexivity.
  - match goal with HO : obs s = _ |- _ => rewrite HO end. cbn [observer_says so_far].
    unfold tell_end, marks, said, announced. destruct verbose; reflexivity.
Qed.

Lemma of_iteration_app j a b : of_iteration j (a ++ b) = of_iteration j a ++ of_iteration j b.
Proof. unfold of_iteration. rewrite filter_app, map_app. reflexivity. Qed.

Lemma of_iteration_tag j k ls : of_iteration j (map (pair k) ls) = if (k =? j)%nat then ls else [].
Proof.
  unfold of_iteration. induction ls as [|x ls IH]; cbn [map filter fst]; [destruct (k =? j)%nat; reflexivity|].
  destruct (k =? j)%nat; cbn [map snd]; rewrite IH; reflexivity.
Qed.

(** What a step says about iteration [j]. *)
Lemma step_says_at j : forall (l l' : list (st A)) k, 
  of_iteration j (concat (map (fun '(j, (s, s')) => map (pair j) (observer_says verbose lb noun (obs s) (obs s')))
              (combine (seq k (length l)) (combine l l')))) =
  if (k <=? j)%nat then match nth_error l (j - k), nth_error l' (j - k) with
  | Some s, Some s' => observer_says verbose lb noun (obs s) (obs s')
  | _, _ => [] end else [].
Proof.
  induction l as [|s l IH]; intros l' k.
  - cbn [length seq combine map concat]. destruct (k <=? j)%nat; [|reflexivity]. destruct (j - k)%nat; reflexivity.
  - destruct l' as [|s' l'].
    + cbn [length seq combine map concat]. destruct (k <=? j)%nat; [|reflexivity]. destruct (j - k)%nat; cbn [nth_error]; [reflexivity|]. destruct (nth_error l n); reflexivity.
    + cbn [length seq combine map concat]. rewrite of_iteration_app, of_iteration_tag, IH.
      destruct (Nat.eqb_spec k j) as [->|Hne].
      * rewrite Nat.sub_diag. cbn [nth_error]. rewrite Nat.leb_refl. destruct (Nat.leb_spec (S j) j); [lia|]. apply app_nil_r.
      * destruct (Nat.leb_spec (S k) j) as [H1|H1], (Nat.leb_spec k j) as [H2|H2]; try lia; [|reflexivity].
        replace (j - k)%nat with (S (j - S k)) by lia. reflexivity.
Qed.

Lemma talks_vruns v0 l v out : talks verbose lb c E iter mk noun v0 l v out -> exists n, vruns c E iter mk n [init c (mk 0%nat)] v0 l v.
Proof. induction 1 as [|l v out l' v' _ (n & IH) HS]; [exists 0%nat; constructor|]. exists (S n). econstructor; eauto. Qed.

Lemma vruns_talks v0 n l v : vruns c E iter mk n [init c (mk 0%nat)] v0 l v -> exists out, talks verbose lb c E iter mk noun v0 l v out.
Proof.
  intros H. remember [init c (mk 0%nat)] as l0 eqn:E0. induction H as [|n l0 v0 l v l' v' H IH HS]; [subst; eexists; constructor|].
  destruct (IH E0) as (out & IH'). eexists. econstructor; eauto.
Qed.

Lemma talks_busy v0 l v out : talks verbose lb c E iter mk noun v0 l v out -> Forall (@Run.busy_pos A) l.
Proof. intros H. destruct (talks_vruns _ _ _ _ H) as (n & HV). apply Run.vruns_runs in HV. eapply Run.runs_busy; eauto. Qed.

Lemma talks_so_far v0 l v out : talks verbose lb c E iter mk noun v0 l v out ->
  forall j, of_iteration j out = match nth_error l j with Some s => so_far (obs s) | None => [] end.
Proof.
  induction 1 as [|l v out l' v' HT IH HS]; intros j.
  - destruct j as [|j]; cbn [nth_error]; [|destruct j; reflexivity]. cbn [so_far init obs]. rewrite marks_0 by exact Hlb. reflexivity.
  - rewrite of_iteration_app, IH. unfold step_says. rewrite step_says_at. cbn [Nat.leb]. rewrite Nat.sub_0_r.
    pose proof (talks_busy _ _ _ _ HT) as HB. apply Run.vrun_step_run in HS. destruct HS as [l1 s s' l2 HS|l s Hm Hlt].
    + destruct (Nat.eq_dec j (length l1)) as [->|Hj].
      * rewrite !SchedRun.nth_len. apply step_so_far; [exact HS|]. rewrite Forall_forall in HB. apply HB. apply in_or_app. right. left. reflexivity.
      * assert (EQ : nth_error (l1 ++ s' :: l2) j = nth_error (l1 ++ s :: l2) j).
        { destruct (Nat.lt_ge_cases j (length l1)); [rewrite !nth_error_app1 by auto; reflexivity|].
          rewrite !nth_error_app2 by auto. destruct (j - length l1)%nat eqn:EE; [lia|]. reflexivity. }
        rewrite EQ. destruct (nth_error (l1 ++ s :: l2) j) as [z|]; [|reflexivity]. rewrite says_same. apply app_nil_r.
    + rewrite app_assoc. destruct (Nat.lt_ge_cases j (length (l ++ [s]))) as [Hj|Hj].
      * rewrite (nth_error_app1 _ _ Hj). destruct (nth_error (l ++ [s]) j) as [z|]; [|reflexivity]. rewrite says_same. apply app_nil_r.
      * rewrite (proj2 (nth_error_None _ _) Hj). rewrite nth_error_app2 by auto. destruct (j - length (l ++ [s]))%nat as [|m]; [|destruct m; reflexivity].
        cbn [nth_error so_far init obs]. rewrite marks_0 by exact Hlb. reflexivity.
Qed.

Lemma talks_inv v0 l v out : talks verbose lb c E iter mk noun v0 l v out -> SchedRun.run_inv c iter mk l.
Proof.
  intros H. destruct (talks_vruns _ _ _ _ H) as (n & HV). apply Run.vruns_runs in HV.
  destruct (SchedRun.run_lemma c iter mk n l Hmk Hiter HV) as (HI & _). exact HI.
Qed.

Lemma milestones_prefix verb lb' n m : lb' <> 0 -> (n <= m)%nat -> exists rest, milestones verb noun lb' m = milestones verb noun lb' n ++ rest.
Proof.
  intros H Hn. induction Hn as [|m Hn (rest & IH)]; [exists []; rewrite app_nil_r; reflexivity|].
  rewrite milestones_S by auto. rewrite IH, <- app_assoc. eexists. reflexivity.
Qed.

Lemma marks_prefix verb n m : (n <= m)%nat -> exists rest, marks verbose verb noun lb m = marks verbose verb noun lb n ++ rest.
Proof.
  intros Hn. unfold marks. destruct verbose; [|exists []; reflexivity]. destruct Hlb as [?|H]; [discriminate|]. apply milestones_prefix; auto.
Qed.

Lemma marks_said verb n : said verbose verb noun lb n = marks verbose verb noun lb n ++ (if verbose then [Line verb noun (Z.of_nat n) true] else []).
Proof. unfold said, marks, announced. destruct verbose; reflexivity. Qed.

(** At any time, what was printed for iteration [j] is the beginning of what should be. *)
Lemma talks_prefix v0 l v out j : talks verbose lb c E iter mk noun v0 l v out ->
  exists rest, said verbose "trained" noun lb (length (concat (Sched.pending (mk j)))) = of_iteration j out ++ rest.
Proof.
  intros HT. rewrite (talks_so_far _ _ _ _ HT j). destruct (talks_inv _ _ _ _ HT) as (_ & HI & _).
  destruct (nth_error l j) as [s|] eqn:Ej; [|eexists; reflexivity]. destruct (HI j s Ej) as (I & _).
  pose proof (Run.ticks_le c _ _ I) as HL. destruct (obs s) as [n|n|n] eqn:Eo; cbn [ticks so_far] in *.
  - rewrite marks_said. destruct (marks_prefix "trained"%string n _ HL) as (rest & ->). rewrite <- app_assoc. eexists. reflexivity.
  - rewrite marks_said. destruct (marks_prefix "trained"%string (pred n) (length (concat (Sched.pending (mk j)))) ltac:(lia)) as (rest & ->). rewrite <- app_assoc. eexists. reflexivity.
  - pose proof (Sched.i_obsend _ _ _ I n Eo) as Hm. destruct (Sched.done_lemma _ _ _ I Hm) as (_ & _ & _ & Hk). rewrite Eo in Hk. cbn [ticks] in Hk.
    rewrite Hk. exists []. rewrite app_nil_r. reflexivity.
Qed.

(** When the observer has ended, everything was printed. *)
Lemma talks_ended v0 l v out j s : talks verbose lb c E iter mk noun v0 l v out -> nth_error l j = Some s -> (exists n, obs s = OEnd n) ->
  of_iteration j out = said verbose "trained" noun lb (length (concat (Sched.pending (mk j)))).
Proof.
  intros HT Ej (n & Eo). rewrite (talks_so_far _ _ _ _ HT j), Ej, Eo. destruct (talks_inv _ _ _ _ HT) as (_ & HI & _). destruct (HI j s Ej) as (I & _).
  pose proof (Sched.i_obsend _ _ _ I n Eo) as Hm. destruct (Sched.done_lemma _ _ _ I Hm) as (_ & _ & _ & Hk). rewrite Eo in Hk. cbn [ticks] in Hk.
  rewrite Hk. reflexivity.
Qed.

(** When Train returns, at most the lines of the last tick and of the total are missing. *)
Lemma talks_returned v0 l v out j : talks verbose lb c E iter mk noun v0 l v out -> returned iter l -> (j < iter)%nat ->
  exists rest, of_iteration j out = marks verbose "trained" noun lb (pred (length (concat (Sched.pending (mk j))))) ++ rest.
Proof.
  intros HT (HL & HR) Hj. rewrite (talks_so_far _ _ _ _ HT j). destruct (talks_inv _ _ _ _ HT) as (_ & HI & HD).
  destruct (nth_error l j) as [s|] eqn:Ej; [|apply nth_error_None in Ej; lia]. destruct (HI j s Ej) as (I & _).
  assert (Hm : main s = MDone).
  { destruct (Nat.eq_dec (S j) (length l)) as [El|El]; [|apply (HD j s Ej); lia]. destruct HR as [?|(l0 & s1 & -> & Hm)]; [lia|].
    rewrite app_length in El. cbn [length] in El. assert (j = length l0) by lia. subst j. rewrite SchedRun.nth_len in Ej. congruence. }
  destruct (Sched.done_lemma _ _ _ I Hm) as (_ & _ & _ & Hk). destruct (obs s) as [n|n|n] eqn:Eo; cbn [ticks so_far] in *; rewrite <- Hk.
  - apply marks_prefix. lia.
  - exists []. rewrite app_nil_r. reflexivity.
  - rewrite marks_said. destruct (marks_prefix "trained"%string (pred n) n ltac:(lia)) as (rest & ->). rewrite <- app_assoc. eexists. reflexivity.
Qed.

(** If Train can return at all, it can return before the total of the last iteration is printed. *)
Lemma talks_early v0 l v out : talks verbose lb c E iter mk noun v0 l v out -> returned iter l ->
  exists l' v' out', talks verbose lb c E iter mk noun v0 l' v' out' /\ returned iter l' /\
    Forall (fun x => l_last x = false) (of_iteration (pred iter) out').
Proof.
  induction 1 as [|l v out l' v' HT IH HS]; intros HR.
  { exfalso. destruct HR as (_ & [?|(l0 & s & E0 & Hm)]); [lia|]. destruct l0 as [|? [|? ?]]; cbn [app] in E0; try discriminate E0. injection E0 as <-. discriminate Hm. }
  assert (D : returned iter l \/ ~ returned iter l).
  { destruct (Nat.eq_dec (length l) iter) as [El|El]; [|right; intros (? & _); contradiction].
    destruct (@exists_last _ l ltac:(destruct l; [cbn in El; lia|discriminate])) as (l0 & s & ->).
    destruct (main s) eqn:Em; [right|right|left]; try (intros (_ & [?|(l1 & s1 & E1 & Hm)]); [lia|]; apply app_inj_tail in E1; destruct E1 as (_ & <-); congruence).
    split; [exact El|]. right. exists l0, s. auto. }
  destruct D as [D|D]; [exact (IH D)|]. exists l', v', (out ++ step_says verbose lb noun l l').
  assert (HT' : talks verbose lb c E iter mk noun v0 l' v' (out ++ step_says verbose lb noun l l')) by (econstructor; eauto).
  split; [exact HT'|]. split; [exact HR|]. rewrite (talks_so_far _ _ _ _ HT').
  destruct HR as (HL & [?|(l0 & s & -> & Hm)]); [lia|]. rewrite app_length in HL. cbn [length] in HL.
  replace (pred iter) with (length l0) by lia. rewrite SchedRun.nth_len.
  assert (NE : forall n, obs s <> OEnd n).
  { intros n Ho. apply Run.vrun_step_run in HS. inversion HS as [l1 z z' l2 HZ EA EB|la z Hz Hlt EA EB].
    - destruct l2 as [|y l2 _] using rev_ind.
      + apply app_inj_tail in EB. destruct EB as (-> & ->). apply D. split; [rewrite <- EA, app_length; cbn [length]; lia|]. right. exists l0, z. split; [auto|].
        destruct (talks_inv _ _ _ _ HT) as (_ & HI & _). rewrite <- EA in HI. destruct (HI _ z (SchedRun.nth_len l0 [] z)) as (I & _).
        destruct HZ; cbn [obs main] in *; try congruence; try (apply (Sched.i_obsend _ _ _ I n Ho)).
      + apply D. rewrite app_comm_cons, app_assoc in EB. apply app_inj_tail in EB. destruct EB as (E1 & ->). split.
        * rewrite <- EA. rewrite <- HL, <- E1. rewrite !app_length. cbn [length]. rewrite !app_length. cbn [length]. lia.
        * right. exists (l1 ++ z :: l2), s. rewrite <- app_assoc. split; [rewrite <- EA; reflexivity|exact Hm].
    - match type of EB with _ ++ ?a :: [?b] = _ => change (a :: [b]) with ([a] ++ [b]) in EB | _ => idtac end.
      rewrite app_assoc in EB. apply app_inj_tail in EB. destruct EB as (_ & <-). discriminate Hm. }
  destruct (obs s) as [n|n|n]; [| |exfalso; exact (NE n eq_refl)]; cbn [so_far]; unfold marks, milestones; destruct verbose; try constructor;
    apply Forall_forall; intros x Hx; apply in_map_iff in Hx; destruct Hx as (k & <- & _); reflexivity.
Qed.
End Talk.

Lemma told_lemma {A X} (c : cfg) (E : effects A X) iter (x : source A) verbose lb noun v0 n :
  verbose = false \/ lb <> 0 -> Run.src_ok x -> (1 <= iter)%nat -> length (concat (Sched.pending x)) = n ->
  told verbose noun lb n iter (fun l out => exists v, talks verbose lb c E iter (fun _ => x) noun v0 l v out).
Proof.
  intros Hlb Hx Hi Hn. subst n. constructor.
  - intros l out j (v & H). exact (talks_prefix c E iter (fun _ => x) verbose lb noun Hlb (fun _ => Hx) Hi v0 l v out j H).
  - intros l out j s (v & H). exact (talks_ended c E iter (fun _ => x) verbose lb noun Hlb (fun _ => Hx) Hi v0 l v out j s H).
  - intros l out j (v & H). exact (talks_returned c E iter (fun _ => x) verbose lb noun Hlb (fun _ => Hx) Hi v0 l v out j H).
  - intros (l & out & (v & H) & HR). destruct (talks_early c E iter (fun _ => x) verbose lb noun Hlb (fun _ => Hx) Hi v0 l v out H HR) as (l' & v' & out' & H1 & H2 & H3).
    exists l', out'. eauto.
Qed.
