(** * C66, C76, C77: the commands

    [train] (New, Train, Save of the chosen model), the operating system [o] and the profile are arbitrary. *)
From Coq Require Import Lia.
From Verif.Lib Require Import Go F64 ListFacts.
From Verif.Spec Require Import Cmd Console Lines.
From Verif.Model Require Import Reader Embedding ParseFloat Search Console Cmd.
From Verif.Proofs Require Search.
From Verif.Properties Require P19_Load P20_Search P21_Console.
Local Open Scope Z_scope.

Lemma set_same fs p n : fs_set fs p n p = Some n.
Proof. unfold fs_set. rewrite gseqb_refl. reflexivity. Qed.
Lemma set_other fs p n q : q <> p -> fs_set fs p n q = fs q.
Proof. intros H. unfold fs_set. destruct (gseqb_spec q p); [contradiction|reflexivity]. Qed.

(** One run without the profiler. *)
Lemma rest_untouched train o fs d out inp fs' r : sane o -> execute_rest train o fs d out inp = (fs', r) ->
  forall p, match fs p with Some n => fs' p = Some n | None => fs' p = None \/ fs' p = Some Dir \/ p = out end.
Proof.
  intros S. unfold execute_rest. unfold file_exists at 1. destruct (fs out) as [n0|] eqn:Eo.
  { intros E p. injection E as <- _. destruct (fs p); auto. }
  destruct (negb (file_exists fs inp)). { intros E p. injection E as <- _. destruct (fs p); auto. }
  destruct (os_mkdir o fs d) as [fs1 b] eqn:Em. pose proof (S _ _ _ _ Em) as M. destruct b.
  2:{ intros E p. injection E as <- _. specialize (M p). destruct (fs p); tauto. }
  unfold create. destruct (match fs1 out with Some Dir => false | _ => os_create o fs1 out end).
  2:{ intros E p. injection E as <- _. specialize (M p). destruct (fs p); tauto. }
  assert (A : forall c p, match fs p with Some n => fs_set fs1 out (File c) p = Some n | None => fs_set fs1 out (File c) p = None \/ fs_set fs1 out (File c) p = Some Dir \/ p = out end).
  { intros c p. specialize (M p). destruct (gostring_eq_dec p out) as [->|Np]; [rewrite Eo; auto|]. rewrite set_other by auto. destruct (fs p); tauto. }
  destruct (open o (fs_set fs1 out (File [])) inp) as [rd|m|].
  - destruct (train rd) as [[w res]|m|]; intros E p; injection E as <- _; [|apply A|apply A].
    specialize (M p). destruct (gostring_eq_dec p out) as [->|Np]; [rewrite Eo; auto|]. rewrite !set_other by auto. destruct (fs p); tauto.
  - intros E p. injection E as <- _. apply A.
  - intros E p. injection E as <- _. apply A.
Qed.

(** C66. No existing file or directory changes, in particular neither an existing output nor the input;
    the only exception is cpu.prof under -prof. What is new is the output and directories. *)
Theorem C66_untouched : forall train prof_bytes o prof fs d out inp fs' r, sane o ->
  execute train prof_bytes o prof fs d out inp = (fs', r) ->
  forall p, prof = true /\ p = bs "cpu.prof" \/
    match fs p with Some n => fs' p = Some n | None => fs' p = None \/ fs' p = Some Dir \/ p = out end.
Proof.
  intros train pb o prof fs d out inp fs' r S E p. destruct prof; [|right; eapply rest_untouched; eauto].
  destruct (gostring_eq_dec p (bs "cpu.prof")) as [->|Np]; [auto|]. right. unfold execute, create in E.
  destruct (match fs prof_path with Some Dir => false | _ => os_create o fs prof_path end).
  - destruct (execute_rest train o (fs_set fs prof_path (File [])) d out inp) as [fs2 r2] eqn:E2. injection E as <- _.
    pose proof (rest_untouched _ _ _ _ _ _ _ _ S E2 p) as H. rewrite set_other in H by auto. rewrite set_other by auto. exact H.
  - injection E as <- _. destruct (fs p); auto.
Qed.
Print Assumptions C66_untouched.

(** C66. The command is refused, and touches nothing, when the output exists or the input does not. *)
Theorem C66_refused : forall train prof_bytes o fs d out inp,
  fs out <> None \/ fs inp = None ->
  exists m, execute train prof_bytes o false fs d out inp = (fs, Err m).
Proof.
  intros train pb o fs d out inp H. cbn. unfold execute_rest, file_exists. destruct (fs out) as [n|]; [eauto|]. destruct H as [H|H]; [congruence|].
  rewrite H. cbn. eauto.
Qed.
Print Assumptions C66_refused.

(** C66. With -prof it is refused too, but an existing cpu.prof has then been replaced by the new
    profile; an output named cpu.prof is always refused. *)
Theorem C66_refused_prof : forall train prof_bytes o fs d out inp,
  fs (bs "cpu.prof") <> Some Dir -> os_create o fs (bs "cpu.prof") = true ->
  out = bs "cpu.prof" \/ fs out <> None \/ (fs inp = None /\ inp <> bs "cpu.prof") ->
  exists m fs', execute train prof_bytes o true fs d out inp = (fs', Err m) /\
    fs' (bs "cpu.prof") = Some (File prof_bytes) /\ forall p, p <> bs "cpu.prof" -> fs' p = fs p.
Proof.
  intros train pb o fs d out inp Nd Cr H. unfold execute, create. change prof_path with (bs "cpu.prof").
  assert (E0 : (match fs (bs "cpu.prof") with Some Dir => false | _ => os_create o fs (bs "cpu.prof") end) = true) by (destruct (fs (bs "cpu.prof")) as [[|c]|]; congruence).
  rewrite E0. set (fs1 := fs_set fs (bs "cpu.prof") (File [])).
  assert (R : exists m, execute_rest train o fs1 d out inp = (fs1, Err m)).
  { unfold execute_rest, file_exists. destruct (fs1 out) as [n|] eqn:Eo; [eauto|].
    assert (Ho : out <> bs "cpu.prof") by (intros ->; unfold fs1 in Eo; rewrite set_same in Eo; discriminate).
    unfold fs1 in Eo. rewrite set_other in Eo by auto. destruct H as [H|[H|[H1 H2]]]; [contradiction|congruence|].
    unfold fs1 at 1. rewrite set_other by auto. rewrite H1. cbn. eauto. }
  destruct R as [m R]. rewrite R. exists m, (fs_set fs1 (bs "cpu.prof") (File pb)). split; [reflexivity|]. split; [apply set_same|].
  intros p Np. rewrite set_other by auto. unfold fs1. apply set_other. auto.
Qed.
Print Assumptions C66_refused_prof.

(** C66. When it succeeds, the output did not exist, the input did, training on the input's contents
    succeeded, and the output is exactly what Save wrote. *)
Theorem C66_success : forall train prof_bytes o fs d out inp fs', sane o ->
  execute train prof_bytes o false fs d out inp = (fs', Ret tt) ->
  fs out = None /\ exists n written, fs inp = Some n /\
    train {| rd_data := match n with File c => c | Dir => [] end; rd_pos := 0; rd_err := match n with File _ => false | Dir => true end |}
      = Ret (written, Ret tt) /\ fs' out = Some (File written).
Proof.
  intros train pb o fs d out inp fs' S. cbn. unfold execute_rest, file_exists. destruct (fs out) as [n|] eqn:Eo; [discriminate|]. destruct (fs inp) as [n|] eqn:Ei; [|discriminate].
  cbn [negb]. destruct (os_mkdir o fs d) as [fs1 b] eqn:Em. pose proof (S _ _ _ _ Em inp) as M. rewrite Ei in M. destruct b; [|discriminate].
  unfold create. destruct (match fs1 out with Some Dir => false | _ => os_create o fs1 out end); [|discriminate].
  assert (Nio : inp <> out) by congruence. unfold open. rewrite set_other by auto. rewrite M.
  destruct n as [|c]; destruct (os_open o _ inp); try discriminate;
    (destruct (train _) as [[w res]|m|] eqn:Et; [|discriminate|discriminate]; intros E; injection E as <- ->; split; [reflexivity|]; eexists; exists w; split; [reflexivity|]; split; [exact Et|apply set_same]).
Qed.
Print Assumptions C66_success.

(** C66. When training fails (or panics), an empty output file is left behind ... *)
Theorem C66_failed_training : forall train prof_bytes o fs d out inp c fs1, sane o ->
  fs out = None -> fs inp = Some (File c) ->
  os_mkdir o fs d = (fs1, true) -> fs1 out = None -> os_create o fs1 out = true ->
  (forall fs2, os_open o fs2 inp = true) ->
  (forall w res, train {| rd_data := c; rd_pos := 0; rd_err := false |} <> Ret (w, res)) ->
  exists fs' r, execute train prof_bytes o false fs d out inp = (fs', r) /\ r <> Ret tt /\ fs' out = Some (File []).
Proof.
  intros train pb o fs d out inp c fs1 S Eo Ei Em E1 Ec Op Tr. cbn. unfold execute_rest, file_exists. rewrite Eo, Ei. cbn [negb]. rewrite Em.
  unfold create. rewrite E1, Ec. pose proof (S _ _ _ _ Em inp) as M. rewrite Ei in M. assert (Nio : inp <> out) by congruence.
  unfold open. rewrite set_other by auto. rewrite M, Op.
  destruct (train _) as [[w res]|m|] eqn:Et; [exfalso; eapply Tr; eauto| |]; (eexists; eexists; split; [reflexivity|]; split; [discriminate|apply set_same]).
Qed.
Print Assumptions C66_failed_training.

(** ... after which the same command is refused, whatever its options. *)
Theorem C66_no_retry : forall train train' prof_bytes o o' fs d out inp fs' r c,
  execute train prof_bytes o false fs d out inp = (fs', r) -> fs' out = Some (File c) ->
  exists m, execute train' prof_bytes o' false fs' d out inp = (fs', Err m).
Proof. intros train train' pb o o' fs d out inp fs' r c _ H. apply C66_refused. left. congruence. Qed.
Print Assumptions C66_no_retry.

Example C66_case :
  let fs : fsys := fun p => if gseqb p (bs "in.txt") then Some (File (bs "a b")) else if gseqb p (bs "old.txt") then Some (File (bs "keep")) else None in
  let bad := fun _ : reader => @Err (gostring * outcome unit) "training failed" in
  let ok := fun r : reader => Ret (rd_data r ++ bs "!", Ret tt) in
  let look (x : fsys * outcome unit) p := (fst x (bs p), snd x) in
  sane permissive /\
  look (execute ok [] permissive false fs [] (bs "new.txt") (bs "in.txt")) "new.txt"%string = (Some (File (bs "a b!")), Ret tt) /\
  look (execute bad [] permissive false fs [] (bs "new.txt") (bs "in.txt")) "new.txt"%string = (Some (File []), Err "training failed") /\
  look (execute ok [] permissive false fs [] (bs "old.txt") (bs "in.txt")) "old.txt"%string = (Some (File (bs "keep")), Err "already existed") /\
  look (execute ok (bs "P") permissive true fs [] (bs "old.txt") (bs "in.txt")) "cpu.prof"%string = (Some (File (bs "P")), Err "already existed").
Proof.
  cbv zeta. split; [|vm_compute; auto]. intros fs d fs' b E p. injection E as <- _. destruct (fs p); auto.
Qed.

(** C76. The query command prints rows exactly when there is one argument, the file can be opened and
    loaded, all its vectors have one dimension and it has the word; they are SearchInternal's. *)
Theorem C76_query : forall pf o fs input args rank rows,
  query pf o fs input args rank = Ret rows <->
  exists w r embs, args = [w] /\ open o fs input = Ret r /\ load pf r = Ret embs /\
    (forall a b, In a embs -> In b embs -> e_dim a = e_dim b) /\ search_internal embs w rank = Ret rows.
Proof.
  intros pf o fs input args rank rows. unfold query, file_exists. split.
  - destruct (fs input) as [n|] eqn:Ef; [|discriminate]. cbn [negb]. destruct args as [|w [|? ?]]; try discriminate.
    destruct (open o fs input) as [r|m|] eqn:Eo; cbn [obind]; try discriminate. destruct (load pf r) as [embs|m|] eqn:El; cbn [obind]; try discriminate.
    destruct (searcher_new embs) as [items|m|] eqn:En; cbn [obind]; try discriminate. intros H.
    assert (items = embs) as -> by (unfold searcher_new in En; destruct (embs_validate embs); cbn in En; congruence).
    exists w, r, embs. split; [reflexivity|]. split; [auto|]. split; [auto|]. split; [apply (P20_Search.C62_new embs); auto|auto].
  - intros (w & r & embs & -> & Eo & El & D & H). assert (fs input <> None) as Nf by (unfold open in Eo; destruct (fs input) as [[|]|]; congruence).
    destruct (fs input); [|congruence]. cbn [negb]. rewrite Eo. cbn [obind]. rewrite El. cbn [obind].
    rewrite (proj2 (proj1 (P20_Search.C62_new embs)) D). cbn [obind]. exact H.
Qed.
Print Assumptions C76_query.

(** C76. With rank >= 1 it never panics, and it succeeds for every word of the file. *)
Theorem C76_safe : forall pf o fs input args rank, 1 <= rank -> query pf o fs input args rank <> Panic /\
  forall w r embs, args = [w] -> open o fs input = Ret r -> load pf r = Ret embs ->
    (forall a b, In a embs -> In b embs -> e_dim a = e_dim b) -> In w (map e_word embs) ->
    exists rows, query pf o fs input args rank = Ret rows.
Proof.
  intros pf o fs input args rank Hr. split.
  - unfold query, file_exists. destruct (fs input) as [n|] eqn:Ef; [|discriminate]. cbn [negb]. destruct args as [|w [|? ?]]; try discriminate.
    assert (open o fs input <> Panic) as Np by (unfold open; rewrite Ef; destruct n; destruct (os_open o fs input); discriminate).
    destruct (open o fs input) as [r|m|] eqn:Eo; cbn [obind]; [|discriminate|congruence].
    destruct (P19_Load.C54_load_or_error pf r) as [[embs El]|[e El]]; rewrite El; cbn [obind]; [|discriminate].
    destruct (searcher_new embs) as [items|m|] eqn:En; cbn [obind]; [|discriminate|].
    + assert (items = embs) as -> by (unfold searcher_new in En; destruct (embs_validate embs); cbn in En; congruence).
      apply (P20_Search.C62_loaded_internal pf r embs w rank El En Hr).
    + unfold searcher_new, embs_validate in En. destruct embs; [discriminate|]. destruct (forallb _ _); discriminate.
  - intros w r embs -> Eo El D Hw.
    assert (En : searcher_new embs = Ret embs) by (apply (P20_Search.C62_new embs); auto).
    destruct (proj2 (P20_Search.C62_loaded_internal pf r embs w rank El En Hr) Hw) as [rows H]. exists rows. apply C76_query. exists w, r, embs. auto.
Qed.
Print Assumptions C76_safe.

Example C76_case :
  let fs : fsys := fun p => if gseqb p (bs "v.txt") then Some (File (bs ("a 1 0" ++ P19_Load.nl ++ "b 1 1" ++ P19_Load.nl))) else None in
  let q args := match query parse_float permissive fs (bs "v.txt") args 1 with Ret ns => map (fun n => string_of_list_byte (n_word n)) ns | Err m => ["E"%string; m] | Panic => [] end in
  q [bs "a"] = ["b"%string] /\ q [] = ["E"; "Input a single word"]%string /\ q [bs "z"] = ["E"; "is not found in searcher"]%string.
Proof. vm_compute. auto. Qed.

(** C77. The console command starts exactly when the file can be opened and loaded, has at least one
    vector and all have one dimension; and then no sequence of inputs crashes it (rank >= 1). *)
Theorem C77_console_starts : forall pf o fs input rank,
  (exists co cur, console_cmd pf o fs input rank = Ret (co, cur)) <->
  exists r embs, open o fs input = Ret r /\ load pf r = Ret embs /\ embs <> [] /\
    forall a b, In a embs -> In b embs -> e_dim a = e_dim b.
Proof.
  intros pf o fs input rank. unfold console_cmd, file_exists. split.
  - intros (co & cur & H). destruct (fs input) as [n|] eqn:Ef; [|discriminate]. cbn [negb] in H.
    destruct (open o fs input) as [r|m|] eqn:Eo; cbn [obind] in H; try discriminate. destruct (load pf r) as [embs|m|] eqn:El; cbn [obind] in H; try discriminate.
    destruct (searcher_new embs) as [items|m|] eqn:En; cbn [obind] in H; try discriminate.
    assert (items = embs) as -> by (unfold searcher_new in En; destruct (embs_validate embs); cbn in En; congruence).
    exists r, embs. split; [auto|]. split; [auto|]. split; [intros ->; discriminate|]. apply (P20_Search.C62_new embs). auto.
  - intros (r & embs & Eo & El & Ne & D). assert (fs input <> None) as Nf by (unfold open in Eo; destruct (fs input) as [[|]|]; congruence).
    destruct (fs input); [|congruence]. cbn [negb]. rewrite Eo. cbn [obind]. rewrite El. cbn [obind].
    assert (En : searcher_new embs = Ret embs) by (apply (P20_Search.C62_new embs); auto). rewrite En. cbn [obind].
    pose proof (P21_Console.C64_loaded_proper pf r embs El En) as [V _]. destruct embs as [|e embs]; [contradiction|]. cbn [console_new].
    inversion V as [|? ? (_ & _ & B) _]; subst. unfold make_vec. destruct (Z.ltb_spec (e_dim e) 0); [lia|]. cbn [obind]. eauto.
Qed.
Print Assumptions C77_console_starts.

Theorem C77_console_never_crashes : forall pf o fs input rank co cur pe ps n, 1 <= rank ->
  console_cmd pf o fs input rank = Ret (co, cur) -> fst (run pe co cur ps n) <> Crashed.
Proof.
  intros pf o fs input rank co cur pe ps n Hr H. unfold console_cmd in H. destruct (negb (file_exists fs input)); [discriminate|].
  destruct (open o fs input) as [r|m|] eqn:Eo; cbn [obind] in H; try discriminate. destruct (load pf r) as [embs|m|] eqn:El; cbn [obind] in H; try discriminate.
  destruct (searcher_new embs) as [items|m|] eqn:En; cbn [obind] in H; try discriminate.
  assert (items = embs) as -> by (unfold searcher_new in En; destruct (embs_validate embs); cbn in En; congruence).
  pose proof (P21_Console.C64_loaded_proper pf r embs El En) as P. destruct (Console.run_status pe embs rank co cur ps n P Hr H) as [[-> _]|[-> _]]; discriminate.
Qed.
Print Assumptions C77_console_never_crashes.

Example C77_case :
  let fs : fsys := fun p => if gseqb p (bs "v.txt") then Some (File (bs ("a 1 0" ++ P19_Load.nl ++ "b 1 1" ++ P19_Load.nl))) else if gseqb p (bs "empty.txt") then Some (File []) else None in
  match console_cmd parse_float permissive fs (bs "v.txt") 1 with
  | Ret (co, cur) => P21_Console.words (snd (run P21_Console.toy_parse co cur (fun _ => (bs "b", false)) 2)) = [["a"]; ["a"]]%string
  | _ => False end /\
  console_cmd parse_float permissive fs (bs "empty.txt") 1 = Err "Number of items for searcher must be over 0".
Proof. vm_compute. auto. Qed.
