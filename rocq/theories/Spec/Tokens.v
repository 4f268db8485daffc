(** * White space and words of a text, on bytes, without any decoding

    A space is one of the UTF-8 encodings of the 25 Unicode white-space characters. The
    words of a text are what remains when the text is cut at every space. *)
From Verif.Lib Require Import Go.

Definition space_encodings : list (list byte) :=
  [ [x09]; [x0a]; [x0b]; [x0c]; [x0d]; [x20];              (* tab ... carriage return, blank *)
    [xc2; x85]; [xc2; xa0];                                 (* U+0085, U+00A0 *)
    [xe1; x9a; x80];                                        (* U+1680 *)
    [xe2; x80; x80]; [xe2; x80; x81]; [xe2; x80; x82]; [xe2; x80; x83];
    [xe2; x80; x84]; [xe2; x80; x85]; [xe2; x80; x86]; [xe2; x80; x87];
    [xe2; x80; x88]; [xe2; x80; x89]; [xe2; x80; x8a];      (* U+2000 .. U+200A *)
    [xe2; x80; xa8]; [xe2; x80; xa9]; [xe2; x80; xaf];      (* U+2028 U+2029 U+202F *)
    [xe2; x81; x9f];                                        (* U+205F *)
    [xe3; x80; x80] ].                                      (* U+3000 *)

Definition is_space (s : list byte) : Prop := In s space_encodings.

Definition starts_with_space (l : list byte) : Prop := exists s r, is_space s /\ l = s ++ r.

Definition has_space (l : list byte) : Prop := exists a s b, is_space s /\ l = a ++ s ++ b.

(** [tokens text words]: the words of a text, in order. *)
Inductive tokens : list byte -> list gostring -> Prop :=
| tokens_end : tokens [] []
| tokens_space : forall s l ws, is_space s -> tokens l ws -> tokens (s ++ l) ws
| tokens_word : forall w l ws, w <> [] -> ~ has_space w -> (l = [] \/ starts_with_space l) ->
    tokens l ws -> tokens (w ++ l) (w :: ws).
