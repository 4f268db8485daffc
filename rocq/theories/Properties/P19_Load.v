(** * C54, C55, C56: loading vector files

    [pf] is strconv.ParseFloat(s, 64): arbitrary in C54; in C55 correct on decimals. *)
From Coq Require Import Lia.
From Verif.Lib Require Import Go F64.
From Verif.Spec Require Import Words Tokens Lines Rows Saved Decimal.
From Verif.Model Require Import Dictionary Matrix Reader Embedding FmtFloat ParseFloat Vector.
From Verif.Proofs Require Embedding.
Local Open Scope Z_scope.

(** C54. Every byte sequence has exactly one decomposition into lines. *)
Theorem C54_lines_well_defined : forall data, exists ls, lines data ls /\ forall ls', lines data ls' -> ls' = ls.
Proof.
  intros data. destruct (Embedding.lines_total (S (length data)) data ltac:(lia)) as [ls H]. exists ls. split; [exact H|].
  intros ls' H'. exact (Embedding.lines_det _ _ H' _ H).
Qed.
Print Assumptions C54_lines_well_defined.

(** C54. Load succeeds with the given embeddings exactly when the input ends without read error,
    every line has at most 65535 bytes, and every line that does not begin with a blank gives the
    corresponding embedding. *)
Theorem C54_load : forall pf r ls, lines (skipn (rd_pos r) (rd_data r)) ls -> forall embs,
  load pf r = Ret embs <->
    rd_err r = false /\ Forall (fun l => Z.of_nat (length l) <= 65535) ls /\
    Forall2 (line_says pf) (filter kept ls) embs.
Proof.
  intros pf r ls H embs. rewrite (proj1 (Embedding.load_spec pf r ls H) embs).
  assert (E : forall l : gostring, Z.of_nat (length l) < 65536 <-> Z.of_nat (length l) <= 65535) by lia.
  rewrite !Forall_forall. setoid_rewrite E. tauto.
Qed.
Print Assumptions C54_load.

(** C54. Otherwise it returns an error (never a panic). *)
Theorem C54_load_or_error : forall pf r, (exists embs, load pf r = Ret embs) \/ exists e, load pf r = Err e.
Proof.
  intros pf r. destruct (Embedding.lines_total (S (length (skipn (rd_pos r) (rd_data r)))) (skipn (rd_pos r) (rd_data r)) ltac:(lia)) as [ls H].
  exact (proj2 (Embedding.load_spec pf r ls H)).
Qed.
Print Assumptions C54_load_or_error.

(** C54. Every loaded embedding is valid: its word is not empty and has no white space, Dim is the
    number of components, at least 1, and Norm is computed from Vector. *)
Theorem C54_valid : forall pf r embs e, load pf r = Ret embs -> In e embs ->
  e_word e <> [] /\ ~ has_space (e_word e) /\ 1 <= e_dim e /\ e_dim e = Z.of_nat (length (e_vec e)) /\
  e_norm e = euclid (e_vec e) /\ emb_validate e = Ret tt.
Proof.
  intros pf r embs e H He. destruct (C54_lines_well_defined (skipn (rd_pos r) (rd_data r))) as (ls & HL & _).
  apply (C54_load pf r ls HL) in H. destruct H as (_ & _ & F). clear HL.
  revert He. induction F as [|l e' ls' es H F IH]; intros []; auto. subst e'.
  destruct (Embedding.line_says_valid _ _ _ H) as (A & B & C & D).
  destruct H as (n & ns & _ & _ & _ & _ & E1 & E2). auto 10.
Qed.
Print Assumptions C54_valid.

(** C54. Validate accepts exactly the embeddings with a word and a vector, whose Dim is its length. *)
Theorem C54_validate : forall e, emb_validate e = Ret tt <->
  e_word e <> [] /\ e_vec e <> [] /\ e_dim e = Z.of_nat (length (e_vec e)).
Proof.
  intros e. unfold emb_validate, gseqb. destruct (gostring_eq_dec (e_word e) []) as [E|E]; [split; [discriminate|tauto]|].
  destruct (Z.eqb_spec (e_dim e) 0) as [D|D]; cbn [orb].
  - split; [discriminate|]. intros (_ & N & L). destruct (e_vec e); [congruence|cbn [length] in L; lia].
  - destruct (e_vec e) as [|x v]; cbn [length Nat.eqb]; [split; [discriminate|tauto]|].
    destruct (Z.eqb_spec (e_dim e) (Z.of_nat (S (length v)))) as [L|L]; cbn [negb]; (split; [|intros (? & ? & ?); (reflexivity || contradiction)]).
    + intros _. split; [exact E|]. split; [discriminate|exact L].
    + discriminate.
Qed.
Print Assumptions C54_validate.

Definition nl : string := String (Ascii.ascii_of_byte x0a) "".
Definition cr : string := String (Ascii.ascii_of_byte x0d) "".
Example C54_case :
  match load parse_float (file_of (bs ("a 1 2.5 " ++ cr ++ nl ++ " comment" ++ nl ++ "b -3 0"))) with
  | Ret es => map (fun e => (string_of_list_byte (e_word e), e_dim e, map fshow (e_vec e))) es
  | _ => [] end =
  [("a"%string, 2, map fshow [f_of_Z 1; f_dec 25 1]); ("b"%string, 2, map fshow [f_of_Z (-3); f_of_Z 0])] /\
  load parse_float (file_of (bs ("a 1" ++ nl ++ nl ++ "b 1"))) = Err "Must be over 2 lenghth for word and vector elems" /\
  load parse_float (file_of (bs ("a 1" ++ nl ++ "b x"))) = Err "strconv.ParseFloat".
Proof. vm_compute. auto. Qed.

(** C55. What Save wrote, Load reads: the words in id order, each with Dim components, each the
    number that reading its six-digit text gives (C53). *)
Theorem C55_save_load : forall pf cut ws dim rows verbose lb,
  reads_decimals pf -> (forall t, concat (cut t) = t) -> verbose = false \/ lb <> 0 -> (1 <= dim)%nat ->
  Forall (fun w => w <> [] /\ ~ has_space w) ws ->
  all_len dim rows -> length rows = length (distinct ws) ->
  Forall2 (fun w v => Z.of_nat (length (saved_line w v)) <= 65536) (distinct ws) rows ->
  exists embs,
    load pf (file_of (fst (save good_writer cut (dict_add dict_new ws) (of_rows dim rows) verbose lb []))) = Ret embs /\
    map e_word embs = distinct ws /\
    Forall2 (fun v e => e_dim e = Z.of_nat dim /\ Forall2 (fun x y => pf (fmt_f x) = Some y) v (e_vec e) /\
                        e_norm e = euclid (e_vec e)) rows embs.
Proof. exact Embedding.save_load. Qed.
Print Assumptions C55_save_load.

Example C55_case :
  let rows := [[f_dec 3333333333 10; f_dec (-5) 1]; [f_dec 25 2; f_of_Z 0]] in
  let d := dict_add dict_new [bs "to"; bs "be"; bs "to"] in
  match load parse_float (file_of (fst (save good_writer (fun t => [t]) d (of_rows 2 rows) false 0 []))) with
  | Ret es => map (fun e => (string_of_list_byte (e_word e), map fshow (e_vec e))) es
  | _ => [] end =
  [("to"%string, map fshow [f_dec 333333 6; f_dec (-5) 1]); ("be"%string, map fshow [f_dec 25 2; f_of_Z 0])].
Proof. vm_compute. reflexivity. Qed.

(** C56. If one line (with its newline) exceeds 65536 bytes, or Dim is 0 and there is a word, the
    file that Save wrote cannot be loaded. *)
Theorem C56_unloadable : forall pf cut ws dim rows verbose lb,
  (forall t, concat (cut t) = t) -> verbose = false \/ lb <> 0 ->
  Forall (fun w => w <> [] /\ ~ has_space w) ws ->
  all_len dim rows -> length rows = length (distinct ws) ->
  (dim = 0%nat /\ ws <> []) \/ ~ Forall2 (fun w v => Z.of_nat (length (saved_line w v)) <= 65536) (distinct ws) rows ->
  exists e, load pf (file_of (fst (save good_writer cut (dict_add dict_new ws) (of_rows dim rows) verbose lb []))) = Err e.
Proof. exact Embedding.save_unloadable. Qed.
Print Assumptions C56_unloadable.

(** Every number takes at least nine bytes with its blank, or is infinite or NaN: with 7282 finite
    components (8 digits, a blank) a one-letter word cannot be loaded. *)
Example C56_case : let n := Z.to_nat 7282 in
  exists rows, all_len n rows /\ length rows = 1%nat /\
  ~ Forall2 (fun w v => Z.of_nat (length (saved_line w v)) <= 65536) (distinct [bs "a"]) rows.
Proof.
  intros n. assert (Hn : Z.of_nat n = 7282) by reflexivity. clearbody n.
  exists [repeat fzero n]. split; [constructor; [apply repeat_length|constructor]|]. split; [reflexivity|].
  intros F. inversion F as [|w v ws vs H _]; subst. revert H. unfold saved_line. rewrite !app_length.
  assert (E : forall n, length (concat (map (fun x => fmt_f x ++ bs " ") (repeat fzero n))) = (9 * n)%nat).
  { clear. induction n as [|n IH]; [reflexivity|]. cbn [repeat map concat]. rewrite app_length, IH. change (length (fmt_f fzero ++ bs " ")) with 9%nat. lia. }
  rewrite E. change (length (bs "a")) with 1%nat. change (length (bs " ")) with 1%nat. change (length [x0a]) with 1%nat. lia.
Qed.
