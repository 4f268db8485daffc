(** * Model of pkg/corpus/cpsutil/cpsutil.go (readers) *)
From Verif.Lib Require Import Go Utf8.

(** An [io.ReadSeeker]: the bytes it delivers from the start, the current offset, and whether
    after these bytes it reports a read error instead of the end of input. The argument of cpsutil.go:30, 46. *)
Record reader := { rd_data : list byte; rd_pos : nat; rd_err : bool }.
(** [r.Seek(0, 0)], cpsutil.go:31, 47. *)
Definition rd_seek0 (r : reader) : reader :=
  {| rd_data := rd_data r; rd_pos := 0; rd_err := rd_err r |}.

(** [bufio.MaxScanTokenSize]: the scanner's buffer never grows beyond this. For cpsutil.go:25, embedding.go:88. *)
Definition max_token : Z := 65536.

(** bufio.ScanWords, first loop: skip leading spaces. [fuel] >= length suffices. For cpsutil.go:26. *)
Fixpoint skip_spaces (fuel : nat) (data : list byte) : list byte :=
  match fuel with
  | O => data
  | S fuel =>
    match data with
    | [] => []
    | _ => let (r, width) := decode_rune data in
           if is_space_rune r then skip_spaces fuel (skipn width data) else data
    end
  end.

(** bufio.ScanWords, second loop: the word up to the next space; also the remaining data
    after that space and the width of the space (0 at the end of the input). For cpsutil.go:26. *)
Fixpoint take_word (fuel : nat) (data : list byte) : gostring * list byte * nat :=
  match fuel with
  | O => ([], data, 0)
  | S fuel =>
    match data with
    | [] => ([], [], 0)
    | _ => let (r, width) := decode_rune data in
           if is_space_rune r then ([], skipn width data, width)
           else let '(w, rest, sw) := take_word fuel (skipn width data) in
                (firstn width data ++ w, rest, sw)
    end
  end.

(** bufio.Scanner with ScanWords on the whole input: the tokens that Scan delivers before
    it returns false, and whether it then reports ErrTooLong. A token must fit in the 64 KiB
    buffer together with the complete space that ends it (at the end of the input: with one
    byte to spare, since a full buffer fails before the end of input is seen).
    Simplification: the chunked reading of the input is not modelled; the end of input (or
    a read error) is reported by a separate empty read. For cpsutil.go:25-26. The chunked reading and readers that report the end early are in Model/Scanner.v. *)
Fixpoint scan_words (fuel : nat) (data : list byte) : list gostring * bool :=
  match fuel with
  | O => ([], false)
  | S fuel =>
    match skip_spaces (length data) data with
    | [] => ([], false)
    | data' =>
      let '(w, rest, sw) := take_word (length data') data' in
      if (max_token <? Z.of_nat (length w + Nat.max 1 sw))%Z then ([], true)
      else let (ws, e) := scan_words fuel rest in (w :: ws, e)
    end
  end.

(** Returned at cpsutil.go:40, 90, embedding.go:103. *)
Definition err_too_long : string := "bufio.Scanner: token too long".
(** The error of the reader, returned at cpsutil.go:40, 90, embedding.go:103. *)
Definition err_read : string := "read error".

(** cpsutil.go:24-28, [scanner] (bufio.NewScanner + ScanWords) on the rest of the reader: the
    tokens, and [scanner.Err()]. On a read error the scanner still delivers the words of the
    bytes it got. *)
Definition scanner (r : reader) : list gostring * option string :=
  let data := skipn (rd_pos r) (rd_data r) in
  let (ws, too_long) := scan_words (S (length data)) data in
  (ws, if too_long then Some err_too_long else if rd_err r then Some err_read else None).

(** A callback may change a state, return an error, or panic. The argument [fn] of cpsutil.go:30, 46. *)
Definition callback (St A : Type) := St -> A -> St * outcome unit.

(** Calling [fn] on every element until it fails. cpsutil.go:33-37, 54-58. *)
Fixpoint for_each {St A} (fn : callback St A) (s : St) (xs : list A) : St * outcome unit :=
  match xs with
  | [] => (s, Ret tt)
  | x :: xs => match fn s x with
               | (s', Ret _) => for_each fn s' xs
               | (s', o) => (s', o)
               end
  end.

(** cpsutil.go:30-44, [ReadWord]: rewind, scan, call [fn] on every word. *)
Definition read_word {St} (r : reader) (fn : callback St gostring) (s : St) : St * outcome unit :=
  let (ws, err) := scanner (rd_seek0 r) in
  match for_each fn s ws with
  | (s', Ret _) => (s', match err with Some e => Err e | None => Ret tt end)
  | res => res
  end.

(** cpsutil.go:53-60, the closure [postFn] of ReadWordWithForwardContext. *)
Definition post_fn {St} (fn : callback St (gostring * gostring)) (s : St)
    (axis : gostring) (ws : list gostring) : St * outcome unit :=
  for_each (fun s w => fn s (axis, w)) s ws.

(** cpsutil.go:67-72: fill [ws] with up to [length ws] further tokens. *)
Fixpoint fill (ws toks : list gostring) : list gostring * list gostring :=
  match ws, toks with
  | [], _ => ([], toks)
  | _, [] => (ws, [])
  | _ :: ws', t :: toks' => let (r, rest) := fill ws' toks' in (t :: r, rest)
  end.

(** cpsutil.go:61-84, the loop; [toks] are the tokens the scanner still has. Returns the
    state and outcome of the loop and the final [axis], [ws] for the last [postFn].
    [fuel] >= number of tokens + 2 suffices. *)
Fixpoint fc_loop {St} (fuel : nat) (fn : callback St (gostring * gostring)) (s : St)
    (axis : gostring) (ws toks : list gostring)
  : St * outcome (gostring * list gostring) :=
  match fuel with
  | O => (s, Ret (axis, ws))
  | S fuel =>
    if gseqb axis [] then
      match toks with
      | [] => (s, Ret (axis, ws))                                 (* break *)
      | t :: toks' =>
        let (ws', rest) := fill ws toks' in
        match post_fn fn s t ws' with
        | (s', Ret _) => fc_loop fuel fn s' t ws' rest
        | (s', Err e) => (s', Err e)
        | (s', Panic) => (s', Panic)
        end
      end
    else
      match ws with
      | [] => (s, Panic)                                          (* ws[0] *)
      | w0 :: ws' =>
        match toks with
        | [] => (s, Ret (w0, ws'))                                (* break *)
        | t :: toks' =>
          match post_fn fn s w0 (ws' ++ [t]) with
          | (s', Ret _) => fc_loop fuel fn s' w0 (ws' ++ [t]) toks'
          | (s', Err e) => (s', Err e)
          | (s', Panic) => (s', Panic)
          end
        end
      end
  end.

(** cpsutil.go:46-94, [ReadWordWithForwardContext]. [n] is a Go int: make panics when it is
    negative. Simplification: after ErrTooLong the Go scanner would hand out the truncated
    buffer once more; the model ends the tokens there (both then return ErrTooLong). Load
    never gets there, because its first pass already fails. *)
Definition read_word_with_forward_context {St} (r : reader) (n : Z)
    (fn : callback St (gostring * gostring)) (s : St) : St * outcome unit :=
  if (n <? 0)%Z then (s, Panic) else
  let (toks, err) := scanner (rd_seek0 r) in
  match fc_loop (length toks + 2) fn s [] (repeat [] (Z.to_nat n)) toks with
  | (s', Ret (axis, ws)) =>
    match post_fn fn s' axis ws with
    | (s'', Ret _) => (s'', match err with Some e => Err e | None => Ret tt end)
    | res => res
    end
  | (s', Err e) => (s', Err e)
  | (s', Panic) => (s', Panic)
  end.
