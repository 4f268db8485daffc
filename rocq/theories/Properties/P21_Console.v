(** * C63, C64, C65: the console

    [pe] is go/parser's ParseExpr, as far as the console looks at its result: arbitrary. *)
From Coq Require Import Lia.
From Verif.Lib Require Import Go F64.
From Verif.Spec Require Import Console Lines.
From Verif.Model Require Import Reader Embedding ParseFloat Search Console.
From Verif.Proofs Require Search Console.
From Verif.Properties Require P19_Load P20_Search.
Local Open Scope Z_scope.

(** Loaded embeddings that New accepts are proper. *)
Theorem C64_loaded_proper : forall pf r embs, load pf r = Ret embs -> searcher_new embs = Ret embs -> proper embs.
Proof.
  intros pf r embs L N. split.
  - apply Forall_forall. intros e He. destruct (P19_Load.C54_valid pf r embs e L He) as (A & _ & B & C & _). auto.
  - apply (proj1 (proj1 (P20_Search.C62_new embs)) N).
Qed.
Print Assumptions C64_loaded_proper.

(** What a line prints when it is the first one. *)
Definition prints (pe : gostring -> option expr) (co : console) (cur0 : cursor) (p : prompt) : list event :=
  match run_turn pe co cur0 p with Continue _ o | Return o | Crash o => o end.

(** C63. After any number of prompts, whatever they were, the console has printed what each of them
    would print as the first one. *)
Theorem C63_history : forall pe items k co cur0 ps n cur out,
  console_new items k = Ret (co, cur0) -> run pe co cur0 ps n = (Running cur, out) ->
  cur = cur0 /\ out = concat (map (fun i => prints pe co cur0 (ps i)) (seq 0 n)).
Proof.
  intros pe items k co cur0 ps n cur out N R. destruct (Console.new_spec _ _ _ _ N) as (_ & _ & Hd & -> & _).
  destruct (Console.run_fresh _ _ _ _ _ _ Hd R) as [-> ->]. split; [reflexivity|]. f_equal.
Qed.
Print Assumptions C63_history.

(** C63. The same for the last line before the console ends. *)
Theorem C63_last : forall pe items k co cur0 ps n cur out st out',
  console_new items k = Ret (co, cur0) -> run pe co cur0 ps n = (Running cur, out) -> run pe co cur0 ps (S n) = (st, out') ->
  out' = out ++ prints pe co cur0 (ps n).
Proof.
  intros pe items k co cur0 ps n cur out st out' N R R'. destruct (C63_history _ _ _ _ _ _ _ _ _ N R) as [-> _].
  cbn [run] in R'. rewrite R in R'. unfold prints. destruct (run_turn pe co cur0 (ps n)); injection R' as <- <-; reflexivity.
Qed.
Print Assumptions C63_last.

Definition toy (w : string) (a b : Z) : embedding := Emb (bs w) 2 [f_of_Z a; f_of_Z b] (norm [f_of_Z a; f_of_Z b]).
Definition toys : list embedding := [toy "a" 1 0; toy "b" 0 1; toy "c" 1 1; toy "d" 1 (-1)]%string.
Lemma toys_proper : proper toys.
Proof. split; [repeat constructor; cbn; try discriminate; lia|]. intros x y Hx Hy. cbn in Hx, Hy. intuition subst; reflexivity. Qed.
Definition words (evs : list event) : list (list string) :=
  map (fun ev => match ev with Table ns => map (fun n => string_of_list_byte (n_word n)) ns | Failed _ => ["failed"%string] | Error m => ["error"; m]%string end) evs.
(** A parser for words and w1 + w2, for the examples. *)
Definition toy_parse (l : gostring) : option expr :=
  if gseqb l (bs "a+b") then Some (Binary (Ident (bs "a")) ADD (Ident (bs "b")))
  else if gseqb l (bs "a+x") then Some (Binary (Ident (bs "a")) ADD (Ident (bs "x")))
  else if gseqb l (bs "a==b+c") then Some (Binary (Ident (bs "a")) (OtherOp (bs "==")) (Binary (Ident (bs "b")) ADD (Ident (bs "c"))))
  else if gseqb l (bs "a-b+c") then Some (Binary (Binary (Ident (bs "a")) SUB (Ident (bs "b"))) ADD (Ident (bs "c")))
  else if gseqb l (bs "(a)") then Some OtherExpr else Some (Ident l).

Example C63_case :
  let ps := fun i => nth i [(bs "a+b", false); (bs "a+x", false); ([], true); (bs "x", false); (bs "a-b+c", false); (bs "a==b+c", false); (bs "a", false); (bs "exit", false)] ([], false) in
  match console_new toys 2 with
  | Ret (co, cur0) => let (st, out) := run toy_parse co cur0 ps 9 in
      words out = [["c"]; [""]; ["error"; "error: "]; ["failed"]; []; ["error"; "failed to parse"]; ["a"]; ["c"; "d"]]%string /\ st = Returned
  | _ => False end.
Proof. vm_compute. auto. Qed.

(** C64. One word: SearchInternal. *)
Theorem C64_word : forall items k co cur0 cur w, console_new items k = Ret (co, cur0) ->
  snd (eval co (Some (Ident w)) cur) =
    match search_internal items w k with Ret rows => Ret [Table rows] | Err _ => Ret [Failed w; Table []] | Panic => Panic end.
Proof.
  intros items k co cur0 cur w N. destruct (Console.new_spec _ _ _ _ N) as (E1 & E2 & Hd & _). rewrite Console.eval_snd by auto.
  unfold eval_body. rewrite E1, E2. destruct (search_internal items w k); reflexivity.
Qed.
Print Assumptions C64_word.

(** C64. w1 + w2 and w1 - w2: the search for the component-wise sum or difference, ignoring w1 and w2. *)
Theorem C64_sum : forall items k co cur0 cur w1 it1 w2 it2, proper items -> console_new items k = Ret (co, cur0) ->
  known items w1 it1 -> known items w2 it2 ->
  snd (eval co (Some (Binary (Ident w1) ADD (Ident w2))) cur) = find_near items k (pointwise fadd (e_vec it1) (e_vec it2)) w1 w2.
Proof.
  intros items k co cur0 cur w1 it1 w2 it2 P N K1 K2. destruct (Console.new_spec _ _ _ _ N) as (E1 & E2 & Hd & _). rewrite Console.eval_snd by auto.
  unfold eval_body. rewrite E1, E2, (Console.eval_two items w1 it1 w2 it2 ADD fadd) by auto. unfold find_near. cbn [c_vec c_w1 c_w2].
  pose proof (Search.search_never_err items (Emb [] 0 (pointwise fadd (e_vec it1) (e_vec it2)) (norm (pointwise fadd (e_vec it1) (e_vec it2)))) k [w1; w2]) as NE.
  destruct (search _ _ _ _); [reflexivity|destruct NE|reflexivity].
Qed.
Print Assumptions C64_sum.
Theorem C64_difference : forall items k co cur0 cur w1 it1 w2 it2, proper items -> console_new items k = Ret (co, cur0) ->
  known items w1 it1 -> known items w2 it2 ->
  snd (eval co (Some (Binary (Ident w1) SUB (Ident w2))) cur) = find_near items k (pointwise fsub (e_vec it1) (e_vec it2)) w1 w2.
Proof.
  intros items k co cur0 cur w1 it1 w2 it2 P N K1 K2. destruct (Console.new_spec _ _ _ _ N) as (E1 & E2 & Hd & _). rewrite Console.eval_snd by auto.
  unfold eval_body. rewrite E1, E2, (Console.eval_two items w1 it1 w2 it2 SUB fsub) by auto. unfold find_near. cbn [c_vec c_w1 c_w2].
  pose proof (Search.search_never_err items (Emb [] 0 (pointwise fsub (e_vec it1) (e_vec it2)) (norm (pointwise fsub (e_vec it1) (e_vec it2)))) k [w1; w2]) as NE.
  destruct (search _ _ _ _); [reflexivity|destruct NE|reflexivity].
Qed.
Print Assumptions C64_difference.

(** C64. Two known words with another operator: an error. *)
Theorem C64_other_operator : forall items k co cur0 cur w1 it1 w2 it2 t, proper items -> console_new items k = Ret (co, cur0) ->
  known items w1 it1 -> known items w2 it2 ->
  exists m, snd (eval co (Some (Binary (Ident w1) (OtherOp t) (Ident w2))) cur) = Err m.
Proof.
  intros items k co cur0 cur w1 it1 w2 it2 t P N K1 K2. destruct (Console.new_spec _ _ _ _ N) as (E1 & E2 & Hd & _). rewrite Console.eval_snd by auto.
  unfold eval_body. rewrite E1, E2, (Console.eval_two_bad items w1 it1 w2 it2) by auto. eexists. reflexivity.
Qed.
Print Assumptions C64_other_operator.

(** C64. A left operand that is not a known word, such as in every chain a - b + c (which parses as
    (a - b) + c), is an error, whatever the operator and the right operand. *)
Theorem C64_left_operand : forall items k co cur0 x op y, proper items -> 1 <= k -> console_new items k = Ret (co, cur0) ->
  match x with Ident w => unknown items w | _ => True end ->
  exists m, snd (eval co (Some (Binary x op y)) cur0) = Err m.
Proof.
  intros items k co cur0 x op y P Hk N H.
  pose proof (Console.eval_no_panic items k co cur0 (Some (Binary x op y)) P Hk N) as NP. revert NP.
  destruct (Console.new_spec _ _ _ _ N) as (E1 & E2 & Hd & _). rewrite Console.eval_snd by auto.
  unfold eval_body. rewrite E1, E2. set (r := search items). clearbody r.
  assert (G : exists c, match as_embedding items x (eval_expr items x cur0) with (_, Ret _) => False | (_, c') => c' = c end).
  { destruct x as [w|x1 o x2|].
    - rewrite Console.as_ident_unknown by auto. eauto.
    - destruct (eval_expr items (Binary x1 o x2) cur0) as [c1 [u|m|]]; cbn [as_embedding]; eauto.
    - cbn [eval_expr as_embedding]. eauto. }
  destruct G as [c G]. change (eval_expr items (Binary x op y) cur0) with
    (match as_embedding items x (eval_expr items x cur0) with
      | (cur1, Ret xi) =>
          match as_embedding items y (eval_expr items y cur1) with
          | (cur2, Ret yi) =>
              match arithmetic (e_vec xi) op (e_vec yi) with
              | Ret v => (Cursor (e_word xi) (e_word yi) v, Ret tt)
              | Err m => (Cursor (e_word xi) (e_word yi) [], Err m)
              | Panic => (cur2, Panic)
              end
          | (cur2, Err _) => (cur2, Ret tt)
          | (cur2, Panic) => (cur2, Panic)
          end
      | (cur1, Err m) => (cur1, Err m)
      | (cur1, Panic) => (cur1, Panic)
      end).
  destruct (as_embedding items x (eval_expr items x cur0)) as [c1 [u|m|]]; [contradiction| |]; cbn [snd]; intros NP; [eauto|congruence].
Qed.
Print Assumptions C64_left_operand.

(** C64. An unknown word on the right, or anything but a word or a binary expression there, is not
    reported, whatever the operator: a table of k-1 blank rows is printed. *)
Theorem C64_right_unreported : forall items k co cur0 w1 it1 op y, proper items -> 1 <= k -> console_new items k = Ret (co, cur0) ->
  known items w1 it1 -> match y with Ident w => unknown items w | Binary _ _ _ => False | OtherExpr => True end ->
  snd (eval co (Some (Binary (Ident w1) op y)) cur0) = Ret (blanks (Z.to_nat k - 1)).
Proof.
  intros items k co cur0 w1 it1 op y P Hk N K1 H. destruct (Console.new_spec _ _ _ _ N) as (E1 & E2 & Hd & Ec & _). rewrite Console.eval_snd by auto.
  unfold eval_body. rewrite E1, E2.
  assert (E : eval_expr items (Binary (Ident w1) op y) cur0 = (cur0, Ret tt)).
  { cbn [eval_expr]. change (cur0, Ret tt) with (eval_expr items (Ident w1) cur0) at 1. rewrite (Console.as_ident items w1 it1) by auto.
    destruct y as [w|y1 o y2|]; [|contradiction|reflexivity]. rewrite Console.as_ident_unknown by auto. reflexivity. }
  rewrite E, Ec. cbn [Console.fresh c_vec c_w1 c_w2]. rewrite Console.zero_search; auto using Console.zeros_norm.
Qed.
Print Assumptions C64_right_unreported.

(** C64. A sum or difference on the right (as in a == b + c, which parses as a == (b + c)) replaces the
    whole line: a and the outer operator have no effect beyond a having to be known. *)
Theorem C64_right_nested : forall items k co cur0 a ita op b itb o c itc, proper items -> console_new items k = Ret (co, cur0) ->
  known items a ita -> known items b itb -> known items c itc -> o = ADD \/ o = SUB ->
  snd (eval co (Some (Binary (Ident a) op (Binary (Ident b) o (Ident c)))) cur0) =
  snd (eval co (Some (Binary (Ident b) o (Ident c))) cur0).
Proof.
  intros items k co cur0 a ita op b itb o c itc P N Ka Kb Kc Ho. destruct (Console.new_spec _ _ _ _ N) as (E1 & E2 & Hd & _). rewrite !Console.eval_snd by auto.
  unfold eval_body. rewrite E1, E2.
  assert (F : exists f, Console.op_fun o = Some f) by (destruct Ho as [-> | ->]; cbn; eauto). destruct F as [f F].
  pose proof (Console.eval_two items b itb c itc o f cur0 P Kb Kc F) as E.
  assert (E' : eval_expr items (Binary (Ident a) op (Binary (Ident b) o (Ident c))) cur0 = eval_expr items (Binary (Ident b) o (Ident c)) cur0).
  { set (y := Binary (Ident b) o (Ident c)) in *. cbn [eval_expr]. change (cur0, Ret tt) with (eval_expr items (Ident a) cur0) at 1.
    rewrite (Console.as_ident items a ita) by auto. rewrite E. cbn [as_embedding]. reflexivity. }
  rewrite E'. reflexivity.
Qed.
Print Assumptions C64_right_nested.

(** C64. No line makes the console panic. *)
Theorem C64_no_panic : forall items k co cur0 e, proper items -> 1 <= k -> console_new items k = Ret (co, cur0) ->
  snd (eval co e cur0) <> Panic.
Proof. exact Console.eval_no_panic. Qed.
Print Assumptions C64_no_panic.

(** New fails exactly on an empty searcher (for proper items). *)
Theorem C64_new : forall items k, proper items -> (exists m, console_new items k = Err m) <-> items = [].
Proof.
  intros items k [V _]. unfold console_new. destruct items as [|e items]; [split; eauto|]. split; [|discriminate]. intros [m H]. inversion V as [|? ? (_ & _ & B) _]; subst.
  unfold make_vec in H. destruct (Z.ltb_spec (e_dim e) 0); [lia|discriminate].
Qed.
Print Assumptions C64_new.

Example C64_case :
  match console_new toys 3 with
  | Ret (co, cur0) =>
      map (fun l => match snd (eval co (toy_parse (bs l)) cur0) with Ret evs => words evs | Err m => [["E"%string; m]] | Panic => [] end)
          ["a"; "x"; "a+b"; "a+x"; "a==b+c"; "a-b+c"; "(a)"]%string =
      [[["c"; "d"]]; [["failed"]; []]; [["c"; ""]]; [[""; ""]]; [["a"; ""]]; [["E"; "failed to parse"]]; [["E"; "invalid type"]]]%string
  | _ => False end /\ known toys (bs "b") (toy "b" 0 1) /\ unknown toys (bs "x").
Proof.
  split; [vm_compute; reflexivity|]. split.
  - exists [toy "a" 1 0], [toy "c" 1 1; toy "d" 1 (-1)]. split; [reflexivity|]. split; [reflexivity|]. cbn. intros [E|[]]. discriminate.
  - cbn. intros H. repeat (destruct H as [H|H]; [discriminate|]). exact H.
Qed.

(** C65. Run returns after a finite number of prompts exactly when one of them is the line "exit"; as
    long as there is none it goes on, whatever lines and prompt errors it gets. *)
Theorem C65_exit : forall pe items k co cur0 ps n, proper items -> 1 <= k -> console_new items k = Ret (co, cur0) ->
  (fst (run pe co cur0 ps n) = Returned <-> exists i, (i < n)%nat /\ fst (ps i) = bs "exit") /\
  (fst (run pe co cur0 ps n) = Running cur0 <-> forall i, (i < n)%nat -> fst (ps i) <> bs "exit").
Proof.
  intros pe items k co cur0 ps n P Hk N. destruct (Console.run_status pe items k co cur0 ps n P Hk N) as [[R A]|[R (i & Hi & Ei)]].
  - split; split; intros H; auto; [rewrite R in H; discriminate|]. destruct H as (i & Hi & Ei). exfalso. apply (A i Hi Ei).
  - split; split; intros H; auto; [eauto|rewrite R in H; discriminate|]. exfalso. apply (H i Hi Ei).
Qed.
Print Assumptions C65_exit.

(** C65. In particular at the end of the input (Prompt then fails every time) Run prints an error for ever. *)
Theorem C65_end_of_input : forall pe items k co cur0 ps n, proper items -> 1 <= k -> console_new items k = Ret (co, cur0) ->
  (forall i, ps i = ([], true)) ->
  run pe co cur0 ps n = (Running cur0, repeat (Error "error: ") n).
Proof.
  intros pe items k co cur0 ps n P Hk N H. induction n as [|n IH]; [reflexivity|]. cbn [run]. rewrite IH, H. cbn.
  f_equal. clear. induction n as [|n IH]; [reflexivity|]. cbn [repeat app]. rewrite IH. reflexivity.
Qed.
Print Assumptions C65_end_of_input.

Example C65_case :
  match console_new toys 2 with
  | Ret (co, cur0) =>
      fst (run toy_parse co cur0 (fun i => if Nat.eqb i 3 then (bs "exit", true) else (bs "a", false)) 3) = Running cur0 /\
      fst (run toy_parse co cur0 (fun i => if Nat.eqb i 3 then (bs "exit", true) else (bs "a", false)) 4) = Returned
  | _ => False end.
Proof. vm_compute. auto. Qed.
