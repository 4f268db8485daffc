(** * Model of pkg/corpus/cooccurrence/encode/encode.go

    [uint64] values are integers in [0, 2^64); [<<] wraps, [-] wraps. *)
From Verif.Lib Require Import Go.
Local Open Scope Z_scope.

(** The range of uint64, encode.go:21-37. *)
Definition two64 : Z := 2 ^ 64.
(** uint64 arithmetic wraps around, encode.go:30, 35-36. *)
Definition wrap64 (x : Z) : Z := x mod two64.

(** encode.go:29-31, [encode]: [l1 | (l2 << 32)]. *)
Definition encode (l1 l2 : Z) : Z := Z.lor l1 (wrap64 (Z.shiftl l2 32)).

(** encode.go:21-27, [EncodeBigram]. *)
Definition encode_bigram (l1 l2 : Z) : Z :=
  if l1 <? l2 then encode l1 l2 else encode l2 l1.

(** encode.go:34-37, [DecodeBigram]. *)
Definition decode_bigram (pid : Z) : Z * Z :=
  let f := Z.shiftr pid 32 in
  (wrap64 (pid - wrap64 (Z.shiftl f 32)), f).
