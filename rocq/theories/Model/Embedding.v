(** * Model of pkg/embedding/embedding.go and pkg/embedding/embutil/embutil.go *)
From Verif.Lib Require Import Go F64 Utf8.
From Verif.Model Require Import Reader.
Local Open Scope Z_scope.

(** embedding.go:28-33, [type Embedding struct]. *)
Record embedding := Emb { e_word : gostring; e_dim : Z; e_vec : list f64; e_norm : f64 }.

(** embedding.go:58, the zero value [Embedding{}]. *)
Definition emb_zero : embedding := Emb [] 0 [] fzero.

(** embutil.go:21-27, [Norm]. *)
Definition norm (v : list f64) : f64 := fsqrt (fold_left (fun n x => fadd n (fmul x x)) v fzero).

(** embedding.go:35-44, [Embedding.Validate]. *)
Definition emb_validate (e : embedding) : outcome unit :=
  if gseqb (e_word e) [] then Err "Word is empty"
  else if (e_dim e =? 0) || (Nat.eqb (length (e_vec e)) 0) then Err "Dim is zero"
  else if negb (e_dim e =? Z.of_nat (length (e_vec e))) then Err "Dim and length of Vector must be same"
  else Ret tt.

(** embedding.go:48-50, [Empty]. *)
Definition embs_empty (es : list embedding) : bool := Nat.eqb (length es) 0.

(** embedding.go:52-59, [Find]. *)
Fixpoint embs_find (es : list embedding) (word : gostring) : embedding * bool :=
  match es with
  | [] => (emb_zero, false)
  | e :: es' => if gseqb word (e_word e) then (e, true) else embs_find es' word
  end.

(** embedding.go:61-71, [Embeddings.Validate]. *)
Definition embs_validate (es : list embedding) : outcome unit :=
  match es with
  | [] => Ret tt
  | e0 :: _ => if forallb (fun e => e_dim e0 =? e_dim e) es then Ret tt
               else Err "dimension for all vectors must be the same"
  end.

(** bufio.ScanLines: the bytes up to the first newline, and what follows it. Called through embedding.go:88-89. *)
Fixpoint take_line (data : list byte) : gostring * option (list byte) :=
  match data with
  | [] => ([], None)
  | b :: r => if byte_eq_dec b x0a then ([], Some r)
              else let (l, rest) := take_line r in (b :: l, rest)
  end.
(** bufio.ScanLines drops one carriage return at the end of the line. Called through embedding.go:88-89. *)
Definition drop_cr (l : gostring) : gostring :=
  match rev l with b :: r => if byte_eq_dec b x0d then rev r else l | [] => l end.

(** bufio.Scanner with its default ScanLines: the lines before Scan returns false, and whether it then
    reports ErrTooLong. A line and its newline must fit in the 64 KiB buffer; so must an unterminated
    last line with one byte to spare (same simplification as Reader.scan_words: the end of the input is
    reported by a separate empty read). [fuel] > length suffices. embedding.go:88-89, 102; the Scanner itself is Model/Scanner.v. *)
Fixpoint scan_lines (fuel : nat) (data : list byte) : list gostring * bool :=
  match fuel with
  | O => ([], false)
  | S fuel =>
    match data with
    | [] => ([], false)
    | _ => let (l, rest) := take_line data in
           if max_token <=? Z.of_nat (length l) then ([], true)
           else match rest with
                | None => ([drop_cr l], false)
                | Some r => let (ls, e) := scan_lines fuel r in (drop_cr l :: ls, e)
                end
    end
  end.

(** strings.Fields: the maximal pieces without white space (unicode.IsSpace and bufio's isSpace are
    the same set of characters). [fuel] > length suffices. embedding.go:109. *)
Fixpoint fields (fuel : nat) (data : list byte) : list gostring :=
  match fuel with
  | O => []
  | S fuel =>
    match skip_spaces (length data) data with
    | [] => []
    | data' => let '(w, rest, _) := take_word (length data') data' in w :: fields fuel rest
    end
  end.

Section Load.
(** strconv.ParseFloat(s, 64); [None] is an error. *)
Variable pf : gostring -> option f64.

(** embedding.go:117-124. *)
Fixpoint parse_vec (elems : list gostring) : outcome (list f64) :=
  match elems with
  | [] => Ret []
  | t :: ts => match pf t with
               | None => Err "strconv.ParseFloat"
               | Some x => obind (parse_vec ts) (fun v => Ret (x :: v))
               end
  end.

(** embedding.go:108-131, [parseLine]. *)
Definition parse_line (line : gostring) : outcome embedding :=
  match fields (S (length line)) line with
  | word :: v :: vs =>
      obind (parse_vec (v :: vs)) (fun vec =>
      Ret (Emb word (Z.of_nat (length (v :: vs))) vec (norm vec)))
  | _ => Err "Must be over 2 lenghth for word and vector elems"
  end.

(** embedding.go:87-106, [parse]; [strings.HasPrefix(line, " ")]. *)
Definition blank_line (line : gostring) : bool :=
  match line with b :: _ => if byte_eq_dec b " "%byte then true else false | [] => false end.
(** embedding.go:87-106, [parse]. *)
Definition parse {St} (r : reader) (op : callback St embedding) (s : St) : St * outcome unit :=
  let data := skipn (rd_pos r) (rd_data r) in
  let (ls, too_long) := scan_lines (S (length data)) data in
  match for_each (fun s line =>
                    if blank_line line then (s, Ret tt)
                    else match parse_line line with
                         | Ret emb => op s emb
                         | Err e => (s, Err e)
                         | Panic => (s, Panic)
                         end) s ls with
  | (s', Ret _) => (s', if too_long then Err err_too_long else if rd_err r then Err err_read else Ret tt)
  | res => res
  end.

(** embedding.go:73-85, [Load]. *)
Definition load (r : reader) : outcome (list embedding) :=
  match parse r (fun embs emb => match emb_validate emb with
                                 | Ret _ => (embs ++ [emb], Ret tt)
                                 | Err e => (embs, Err e)
                                 | Panic => (embs, Panic)
                                 end) [] with
  | (embs, Ret _) => Ret embs
  | (_, Err e) => Err e
  | (_, Panic) => Panic
  end.
End Load.
