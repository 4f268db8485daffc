(** * The Go standard library's UTF-8 decoding and white space

    [utf8.DecodeRune] and [bufio.isSpace] (equal to [unicode.IsSpace] on every rune),
    written down from the Go library; needed for bufio.ScanWords and strings.Fields. *)
From Verif.Lib Require Import Go.
From Coq Require Import NArith.
Local Open Scope N_scope.

Definition bN (b : byte) : N := Byte.to_N b.
Definition inr (lo hi x : N) : bool := (lo <=? x) && (x <=? hi).
Definition cont (b : byte) : bool := inr 0x80 0xBF (bN b).
Definition rune_error : N := 0xFFFD.

(** [utf8.DecodeRune]: rune and width; invalid encodings give (RuneError, 1), the empty
    input (RuneError, 0). *)
Definition decode_rune (l : list byte) : N * nat :=
  match l with
  | [] => (rune_error, 0%nat)
  | b0 :: t =>
    let c0 := bN b0 in
    if c0 <? 0x80 then (c0, 1%nat)
    else if inr 0xC2 0xDF c0 then
      match t with
      | b1 :: _ => if cont b1 then ((c0 - 0xC0) * 64 + (bN b1 - 0x80), 2%nat) else (rune_error, 1%nat)
      | _ => (rune_error, 1%nat)
      end
    else if inr 0xE0 0xEF c0 then
      match t with
      | b1 :: b2 :: _ =>
        let lo := if c0 =? 0xE0 then 0xA0 else 0x80 in
        let hi := if c0 =? 0xED then 0x9F else 0xBF in
        if inr lo hi (bN b1) && cont b2
        then ((c0 - 0xE0) * 4096 + (bN b1 - 0x80) * 64 + (bN b2 - 0x80), 3%nat)
        else (rune_error, 1%nat)
      | _ => (rune_error, 1%nat)
      end
    else if inr 0xF0 0xF4 c0 then
      match t with
      | b1 :: b2 :: b3 :: _ =>
        let lo := if c0 =? 0xF0 then 0x90 else 0x80 in
        let hi := if c0 =? 0xF4 then 0x8F else 0xBF in
        if inr lo hi (bN b1) && cont b2 && cont b3
        then ((c0 - 0xF0) * 262144 + (bN b1 - 0x80) * 4096 + (bN b2 - 0x80) * 64 + (bN b3 - 0x80), 4%nat)
        else (rune_error, 1%nat)
      | _ => (rune_error, 1%nat)
      end
    else (rune_error, 1%nat)
  end.

(** [bufio.isSpace]. *)
Definition is_space_rune (r : N) : bool :=
  if r <=? 0xFF then
    (r =? 0x20) || inr 0x09 0x0D r || (r =? 0x85) || (r =? 0xA0)
  else
    inr 0x2000 0x200A r || (r =? 0x1680) || (r =? 0x2028) || (r =? 0x2029)
    || (r =? 0x202F) || (r =? 0x205F) || (r =? 0x3000).
