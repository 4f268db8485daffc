(** * C08-C09: reading words and word pairs *)
From Verif.Lib Require Import Go.
From Verif.Spec Require Import Tokens Window.
From Verif.Model Require Import Reader.
From Verif.Proofs Require Reader.

(** C08. Every byte sequence has exactly one decomposition into words. *)
Theorem C08_words_well_defined : forall data, exists ws, tokens data ws /\
  (forall ws', tokens data ws' -> ws' = ws) /\ Forall (fun w => w <> [] /\ ~ has_space w) ws.
Proof. exact Reader.tokens_unique_lemma. Qed.
Print Assumptions C08_words_well_defined.

(** C08. ReadWord, from any reader position and for every callback, calls the callback on the
    words in order until it fails; it reports an error after the word list is cut by a word that
    does not fit the buffer: never if all words have at most 65533 bytes, always if one has
    65536 or more. A read error at the end of the delivered bytes is reported after the words
    of these bytes. *)
Theorem C08_read_word : forall (St : Type) (fn : callback St gostring) (s : St) (r : reader) all,
  tokens (rd_data r) all ->
  exists ws more, all = ws ++ more /\
    Forall (fun w => (Z.of_nat (length w) < 65536)%Z) ws /\
    (forall w more', more = w :: more' -> (65534 <= Z.of_nat (length w))%Z) /\
    (Forall (fun w => (Z.of_nat (length w) <= 65533)%Z) all -> more = []) /\
    read_word r fn s =
      match for_each fn s ws with
      | (s', Ret _) => (s', match more with
                            | [] => if rd_err r then Err err_read else Ret tt
                            | _ => Err err_too_long
                            end)
      | res => res
      end.
Proof. exact Reader.read_word_lemma. Qed.
Print Assumptions C08_read_word.

(** C08. What "until it fails" means, for a callback that logs its words and fails on the bad
    ones: the log is the words up to and including the first bad one. *)
Theorem C08_callback_order : forall (bad : gostring -> bool) log ws,
  exists seen rest o, ws = seen ++ rest /\
    for_each (fun log w => (log ++ [w], if bad w then Err "stop"%string else Ret tt)) log ws = (log ++ seen, o) /\
    ((o = Ret tt /\ rest = [] /\ forallb (fun w => negb (bad w)) ws = true) \/
     (o = Err "stop"%string /\ exists pre w, seen = pre ++ [w] /\ bad w = true /\ forallb (fun w => negb (bad w)) pre = true)).
Proof. exact Reader.for_each_log. Qed.
Print Assumptions C08_callback_order.

(** Ideographic space and no-break space separate words; an invalid byte does not. *)
Example C08_case :
  read_word {| rd_data := bs " a b" ++ [xe3; x80; x80] ++ bs "c" ++ [xff] ++ bs "d" ++ [xc2; xa0; x0a] ; rd_pos := 3; rd_err := false |}
    (fun log w => (log ++ [w], Ret tt)) [] = ([bs "a"; bs "b"; bs "c" ++ [xff] ++ bs "d"], Ret tt).
Proof. vm_compute. reflexivity. Qed.

(** C09. Documents longer than the window: the callback gets the pairs (w_i, w_j),
    i < j <= i + n, for the first L - n + 1 positions i only. *)
Theorem C09_forward_context_long :
  forall (St : Type) (fn : callback St (gostring * gostring)) s r n all,
  tokens (rd_data r) all -> rd_err r = false -> Forall (fun w => (Z.of_nat (length w) <= 65533)%Z) all ->
  1 <= n < length all ->
  read_word_with_forward_context r (Z.of_nat n) fn s =
  for_each fn s (window_pairs_upto (length all - n + 1) n all).
Proof. exact Reader.forward_context_long. Qed.
Print Assumptions C09_forward_context_long.

(** C09. What is lost: the window pairs of the last n-1 words, (n-1)(n-2)/2 pairs; nothing is lost
    exactly when n <= 2. *)
Theorem C09_forward_context_loss : forall (A : Type) n (all : list A), 1 <= n < length all ->
  exists lost,
    window_pairs n all = window_pairs_upto (length all - n + 1) n all ++ lost /\
    lost = window_pairs n (skipn (length all - n + 1) all) /\
    2 * length lost = (n - 1) * (n - 2) /\
    (lost = [] <-> n <= 2).
Proof. exact @Reader.forward_context_loss. Qed.
Print Assumptions C09_forward_context_loss.

(** C09. Documents of 1..n words: w_0 is paired with the other words and n+1-L empty strings;
    then the next of these with those after it. *)
Theorem C09_forward_context_short :
  forall (St : Type) (fn : callback St (gostring * gostring)) s r n w t,
  tokens (rd_data r) (w :: t) -> rd_err r = false -> Forall (fun w => (Z.of_nat (length w) <= 65533)%Z) (w :: t) ->
  length (w :: t) <= n ->
  exists p0 p, t ++ repeat [] (n + 1 - length (w :: t)) = p0 :: p /\
  read_word_with_forward_context r (Z.of_nat n) fn s =
  for_each fn s (map (pair w) (p0 :: p) ++ map (pair p0) p).
Proof. exact Reader.forward_context_short. Qed.
Print Assumptions C09_forward_context_short.

(** C09. Empty documents give n pairs of empty strings; a zero window panics on a non-empty document,
    a negative one always. *)
Theorem C09_forward_context_degenerate :
  forall (St : Type) (fn : callback St (gostring * gostring)) s r,
  (tokens (rd_data r) [] -> rd_err r = false -> forall n, read_word_with_forward_context r (Z.of_nat n) fn s =
      for_each fn s (repeat ([], []) n)) /\
  (forall w t, tokens (rd_data r) (w :: t) -> Forall (fun w => (Z.of_nat (length w) <= 65533)%Z) (w :: t) ->
      read_word_with_forward_context r 0 fn s = (s, Panic)) /\
  (forall z, (z < 0)%Z -> read_word_with_forward_context r z fn s = (s, Panic)).
Proof. exact Reader.forward_context_degenerate. Qed.
Print Assumptions C09_forward_context_degenerate.

(** With a window of 3 over a b c d e the pair (d, e) is never seen. *)
Example C09_case :
  read_word_with_forward_context {| rd_data := bs "a b c d e"; rd_pos := 0; rd_err := false |} 3
    (fun log p => (log ++ [p], Ret tt)) [] =
  ([(bs "a", bs "b"); (bs "a", bs "c"); (bs "a", bs "d");
    (bs "b", bs "c"); (bs "b", bs "d"); (bs "b", bs "e");
    (bs "c", bs "d"); (bs "c", bs "e")], Ret tt).
Proof. vm_compute. reflexivity. Qed.
