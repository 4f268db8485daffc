(** * Model of bufio.Scanner as cpsutil.go and embedding.go use it: buffer and chunked reads

    cpsutil.go:24-28 and embedding.go:88 put a bufio.Scanner on an [io.Reader]; Reader.v and
    Embedding.v describe what it delivers for the whole input at once. Here is the Scanner itself (Go
    standard library, bufio/scan.go), for a reader that hands out its bytes in pieces.

    The [k]-th call of Read returns [S (sizes k)] bytes, or less if there is less room in the buffer or
    less input; so every [sizes] is a way to cut the input into pieces. Empty reads that are not the end
    (the Scanner allows 100 in a row) change nothing and are left out. After the last byte Read reports
    the end of the input (or a read error); [eager] readers report it together with the last bytes. *)
From Verif.Lib Require Import Go F64 Utf8.
From Verif.Model Require Import Reader Embedding.
Local Open Scope Z_scope.

(** bufio.SplitFunc: how far to advance, and the token if there is one. For cpsutil.go:26, embedding.go:88. *)
Definition split_func := list byte -> bool -> nat * option gostring.

(** bufio.ScanWords (cpsutil.go:26). *)
Definition split_words : split_func := fun data atEOF =>
  let data' := skip_spaces (length data) data in
  let '(w, rest, sw) := take_word (length data') data' in
  if (0 <? sw)%nat then ((length data - length rest)%nat, Some w)
  else if atEOF && (0 <? length data')%nat then (length data, Some data')
  else ((length data - length data')%nat, None).

(** bufio.ScanLines (the default of NewScanner, embedding.go:88). *)
Definition split_lines : split_func := fun data atEOF =>
  if atEOF && (length data =? 0)%nat then (0%nat, None)
  else match take_line data with
       | (l, Some _) => (S (length l), Some (drop_cr l))
       | (_, None) => if atEOF then (length data, Some (drop_cr data)) else (0%nat, None)
       end.

Section Scan.
Variables (split : split_func) (sizes : nat -> nat) (eager : bool).

(** bufio.Scanner.Scan, called until it returns false. [cap] is len(s.buf), [start] is s.start, [win] the
    bytes s.buf[s.start:s.end], [rest] what the reader still has, [err] whether s.err is set. The
    result: the tokens, and whether ErrTooLong is reported. [None]: out of fuel. For cpsutil.go:33, embedding.go:89. *)
Fixpoint scan (fuel k : nat) (cap start : Z) (win rest : list byte) (err : bool) : option (list gostring * bool) :=
  match fuel with
  | O => None
  | S fuel =>
    let '(adv, tok) := if (0 <? length win)%nat || err then split win err else (0%nat, None) in
    let start1 := start + Z.of_nat adv in
    let win1 := skipn adv win in
    match tok with
    | Some t => match scan fuel k cap start1 win1 rest err with Some (ts, e) => Some (t :: ts, e) | None => None end
    | None =>
      if err then Some ([], false) else
      let len := Z.of_nat (length win1) in
      (* shift the data to the beginning of the buffer *)
      let start2 := if (0 <? start1) && ((start1 + len =? cap) || (cap / 2 <? start1)) then 0 else start1 in
      (* is the buffer full? *)
      let full := start2 + len =? cap in
      if full && (max_token <=? cap) then Some ([], true) else
      let cap3 := if full then (if cap =? 0 then 4096 else Z.min (2 * cap) max_token) else cap in
      let start3 := if full then 0 else start2 in
      (* read *)
      match rest with
      | [] => scan fuel (S k) cap3 start3 win1 [] true
      | _ => let n := Nat.min (Nat.min (S (sizes k)) (Z.to_nat (cap3 - start3 - len))) (length rest) in
             scan fuel (S k) cap3 start3 (win1 ++ firstn n rest) (skipn n rest) (eager && (n =? length rest)%nat)
      end
    end
  end.

(** A new Scanner (bufio.NewScanner) on the input [data]; the fuel suffices (Proofs/Scanner.v). cpsutil.go:25, embedding.go:88. *)
Definition scan_all (data : list byte) : option (list gostring * bool) := scan (3 * length data + 2) 0 0 0 [] data false.
End Scan.

(** cpsutil.go:30-44, ReadWord on a reader that delivers its bytes in pieces: [scanner] of Reader.v with
    the Scanner above. *)
Definition read_word_pieces {St} (sizes : nat -> nat) (eager : bool) (r : reader) (fn : callback St gostring) (s : St) : option (St * outcome unit) :=
  match scan_all split_words sizes eager (rd_data r) with
  | None => None
  | Some (ws, too_long) =>
    Some match for_each fn s ws with
         | (s', Ret _) => (s', if too_long then Err err_too_long else if rd_err r then Err err_read else Ret tt)
         | res => res
         end
  end.

(** embedding.go:73-106, Load (with parse) on a reader that delivers its bytes in pieces; [pf] stands for
    strconv.ParseFloat as in Embedding.v. *)
Definition load_pieces (sizes : nat -> nat) (eager : bool) (pf : gostring -> option f64) (r : reader) : option (outcome (list embedding)) :=
  match scan_all split_lines sizes eager (skipn (rd_pos r) (rd_data r)) with
  | None => None
  | Some (ls, too_long) =>
    Some match for_each (fun embs line =>
                if blank_line line then (embs, Ret tt)
                else match parse_line pf line with
                     | Ret emb => match emb_validate emb with
                                  | Ret _ => (embs ++ [emb], Ret tt)
                                  | Err e => (embs, Err e)
                                  | Panic => (embs, Panic)
                                  end
                     | Err e => (embs, Err e)
                     | Panic => (embs, Panic)
                     end) [] ls with
         | (embs, Ret _) => if too_long then Err err_too_long else if rd_err r then Err err_read else Ret embs
         | (_, Err e) => Err e
         | (_, Panic) => Panic
         end
  end.
