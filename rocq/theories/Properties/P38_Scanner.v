(** * C101: the way the reader delivers its bytes does not matter

    [scan_all split sizes eager data] (Model/Scanner.v) is bufio.Scanner, with its buffer, on a reader
    that delivers the bytes of [data] in pieces: at most [1 + sizes k] bytes by the k-th Read; an [eager]
    reader reports the end of the input together with the last bytes, any other by an extra empty Read. *)
From Coq Require Import Lia.
From Verif.Lib Require Import Go F64.
From Verif.Spec Require Import Tokens Lines.
From Verif.Model Require Import Reader Embedding Scanner ParseFloat.
From Verif.Proofs Require Tokens Reader Embedding.
From Verif.Proofs Require Import Scanner.
Local Open Scope Z_scope.

(** C101. Words: for every text whose words have at most 65533 bytes, and every way to cut it into pieces
    (also within a multi-byte space), the scanner delivers the words of the text, and no error. *)
Theorem C101_words : forall sizes eager data all, tokens data all -> Forall (fun w => Z.of_nat (length w) <= 65533) all ->
  scan_all split_words sizes eager data = Some (all, false).
Proof.
  intros sizes eager data all T F.
  assert (E : whole_words data = (all, false)).
  { unfold whole_words. destruct (scan_words (S (length data)) data) as [ws e] eqn:E. apply Tokens.scan_words_spec in E; [|lia].
    destruct E as (more & H & _ & E0 & E1). assert (all = ws ++ more) by exact (Tokens.tokens_det _ _ T _ H). subst all. destruct e.
    - exfalso. destruct (E1 eq_refl) as (w & m & -> & L). rewrite Forall_forall in F. specialize (F w ltac:(apply in_or_app; right; left; reflexivity)). lia.
    - rewrite (E0 eq_refl), app_nil_r. reflexivity. }
  destruct eager; [rewrite scan_words_eager by (rewrite E; reflexivity)|rewrite scan_words_pieces]; rewrite E; reflexivity.
Qed.
Print Assumptions C101_words.

(** C101. Lines, the same: every line of the text (without its newline and one carriage return before
    it), if the lines have at most 65535 bytes. *)
Theorem C101_lines : forall sizes eager data ls, lines data ls -> Forall (fun l => Z.of_nat (length l) <= 65535) ls ->
  scan_all split_lines sizes eager data = Some (map drop_cr ls, false).
Proof.
  intros sizes eager data ls T F.
  assert (E : whole_lines data = (map drop_cr ls, false)).
  { unfold whole_lines. pose proof (Embedding.scan_lines_spec (S (length data)) data ltac:(lia)) as E. destruct (scan_lines (S (length data)) data) as [out e].
    destruct E as (pre & more & H & -> & _ & E). assert (ls = pre ++ more) by exact (Embedding.lines_det _ _ T _ H). subst ls. destruct e.
    - exfalso. destruct E as (l & m & -> & L). rewrite Forall_forall in F. specialize (F l ltac:(apply in_or_app; right; left; reflexivity)). lia.
    - subst more. rewrite app_nil_r. reflexivity. }
  destruct eager; [rewrite scan_lines_eager by (rewrite E; reflexivity)|rewrite scan_lines_pieces]; rewrite E; reflexivity.
Qed.
Print Assumptions C101_lines.

(** C101. For every text at all, also with longer words: what is delivered, and whether the error is
    reported, does not depend on the pieces. An eager reader gives the same if there is no error. *)
Theorem C101_same : forall sizes sizes' data,
  (exists ts e, scan_all split_words sizes false data = Some (ts, e) /\ scan_all split_words sizes' false data = Some (ts, e) /\
     (e = false -> scan_all split_words sizes' true data = Some (ts, e))) /\
  (exists ls e, scan_all split_lines sizes false data = Some (ls, e) /\ scan_all split_lines sizes' false data = Some (ls, e) /\
     (e = false -> scan_all split_lines sizes' true data = Some (ls, e))).
Proof.
  intros sizes sizes' data. split.
  - exists (fst (whole_words data)), (snd (whole_words data)). rewrite <- surjective_pairing, !scan_words_pieces. auto using scan_words_eager.
  - exists (fst (whole_lines data)), (snd (whole_lines data)). rewrite <- surjective_pairing, !scan_lines_pieces. auto using scan_lines_eager.
Qed.
Print Assumptions C101_same.

(** C101. Too long: the words in front of the long one are delivered, then the error is reported; so a
    word of 65536 bytes or more is never delivered, cut or skipped. *)
Theorem C101_too_long : forall sizes data all, tokens data all -> Exists (fun w => 65536 <= Z.of_nat (length w)) all ->
  exists ws w more, all = ws ++ w :: more /\ 65534 <= Z.of_nat (length w) /\ Forall (fun w => Z.of_nat (length w) < 65536) ws /\
    scan_all split_words sizes false data = Some (ws, true).
Proof.
  intros sizes data all T X. rewrite scan_words_pieces. unfold whole_words. destruct (scan_words (S (length data)) data) as [ws e] eqn:E. apply Tokens.scan_words_spec in E; [|lia].
  destruct E as (more & H & F & E0 & E1). assert (all = ws ++ more) by exact (Tokens.tokens_det _ _ T _ H). subst all. destruct e.
  - destruct (E1 eq_refl) as (w & m & -> & L). exists ws, w, m. auto.
  - exfalso. rewrite (E0 eq_refl), app_nil_r in X. apply Exists_exists in X. destruct X as (w & I & L). rewrite Forall_forall in F. specialize (F w I). lia.
Qed.
Print Assumptions C101_too_long.

(** C101. Hence ReadWord and Load, on readers that deliver in pieces, do what ReadWord and Load of the
    model do (about which C08, C09, C10, C54 ... speak); [None] would be a scanner that never ends. *)
Theorem C101_read_word : forall (St : Type) sizes (r : reader) (fn : callback St gostring) s,
  read_word_pieces sizes false r fn s = Some (read_word r fn s).
Proof.
  intros. unfold read_word_pieces, read_word, scanner. rewrite scan_words_pieces. unfold whole_words, rd_seek0. cbn [rd_pos rd_data rd_err skipn].
  destruct (scan_words (S (length (rd_data r))) (rd_data r)) as [ws []]; [|destruct (rd_err r)]; reflexivity.
Qed.
Print Assumptions C101_read_word.

Theorem C101_load : forall sizes pf r, load_pieces sizes false pf r = Some (load pf r).
Proof.
  intros. unfold load_pieces, load, parse. rewrite scan_lines_pieces. unfold whole_lines. set (data := skipn (rd_pos r) (rd_data r)).
  destruct (scan_lines (S (length data)) data) as [ls tl]. f_equal.
  match goal with |- match ?a with _ => _ end = match match ?b with _ => _ end with _ => _ end => change b with a; destruct a as [embs [u|e|]] end; [destruct tl, (rd_err r)|..]; reflexivity.
Qed.
Print Assumptions C101_load.

(** C101. The one difference: whether a last word of exactly 65536 bytes is accepted depends on how the
    reader reports the end. *)
Fixpoint same_bytes (a b : list byte) : bool :=
  match a, b with [], [] => true | x :: a, y :: b => if byte_eq_dec x y then same_bytes a b else false | _, _ => false end.
Lemma same_bytes_eq : forall a b, same_bytes a b = true -> a = b.
Proof. induction a as [|x a IH]; intros [|y b] E; try discriminate E; [reflexivity|]. cbn [same_bytes] in E. destruct (byte_eq_dec x y); [|discriminate E]. f_equal; auto. Qed.
Definition all_in_one : nat -> nat := fun _ => Z.to_nat 70000.
Theorem C101_last_word : let w := repeat x61 (Z.to_nat 65536) in
  scan_all split_words all_in_one false w = Some ([], true) /\ scan_all split_words all_in_one true w = Some ([w], false).
Proof.
  cbv zeta. split.
  - assert (B : match scan_all split_words all_in_one false (repeat x61 (Z.to_nat 65536)) with Some ([], true) => true | _ => false end = true) by (vm_cast_no_check (eq_refl true)).
    destruct (scan_all _ _ _ _) as [[[|? ?] []]|]; try discriminate B. reflexivity.
  - assert (B : match scan_all split_words all_in_one true (repeat x61 (Z.to_nat 65536)) with Some ([w'], false) => same_bytes w' (repeat x61 (Z.to_nat 65536)) | _ => false end = true) by (vm_cast_no_check (eq_refl true)).
    destruct (scan_all _ _ _ _) as [[[|w' [|? ?]] []]|]; try discriminate B. apply same_bytes_eq in B. rewrite B. reflexivity.
Qed.
Print Assumptions C101_last_word.

(** Ideographic space (e3 80 80) cut by the pieces, one byte at a time. *)
Example C101_case : let text := bs "a" ++ [xe3; x80; x80] ++ bs "bc" ++ [x0a; xc2] in
  tokens text [bs "a"; bs "bc"; [xc2]] /\ scan_all split_words (fun _ => 0%nat) false text = Some ([bs "a"; bs "bc"; [xc2]], false) /\
  scan_all split_lines (fun k => k) true text = Some ([bs "a" ++ [xe3; x80; x80] ++ bs "bc"; [xc2]], false).
Proof.
  cbv zeta. split; [|split; vm_compute; reflexivity].
  destruct (Reader.tokens_unique_lemma (bs "a" ++ [xe3; x80; x80] ++ bs "bc" ++ [x0a; xc2])) as (ws & T & _).
  pose proof (Tokens.scan_words_spec 10 (bs "a" ++ [xe3; x80; x80] ++ bs "bc" ++ [x0a; xc2]) [bs "a"; bs "bc"; [xc2]] false ltac:(vm_compute; lia) ltac:(vm_compute; reflexivity)) as (more & H & _ & E & _).
  rewrite (E eq_refl), app_nil_r in H. exact H.
Qed.
