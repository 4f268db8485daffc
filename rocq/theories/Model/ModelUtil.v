(** * Model of pkg/model/modelutil/modelutil.go *)
From Verif.Lib Require Import Go F64.
Local Open Scope Z_scope.

(** uint64 arithmetic. modelutil.go:22, 27-28. *)
Definition W64 : Z := 2 ^ 64.

(** modelutil.go:21-23: the package variable [next], initially 1. *)
Definition rand_init : Z := 1.

(** modelutil.go:27: [next = next*uint64(25214903917) + 11]. *)
Definition lcg (next : Z) : Z := (next * 25214903917 + 11) mod W64.

(** [int(u)] of a uint64. modelutil.go:28. *)
Definition int_of_u64 (u : Z) : Z := if u <? 2 ^ 63 then u else u - W64.

(** modelutil.go:26-29, [NextRandom]: the new value of [next] and the result.
    [% uint64(value)] panics for 0. Concurrent unsynchronised calls are not modelled. *)
Definition next_random (next : Z) (value : Z) : Z * outcome Z :=
  let next' := lcg next in
  let m := value mod W64 in
  (next', if m =? 0 then Panic else Ret (int_of_u64 (next' mod m))).

(** modelutil.go:38: [int(math.Trunc(float64(q)))]; [None] only where Go's conversion is
    implementation-defined. *)
Definition trunc_conv (q : Z) : option Z := f_to_Z (ftrunc (f_of_Z q)).

(** modelutil.go:36-39: the boundaries [indexPerThread[i..i+n-1]] given [indexPerThread[i-1] = prev]. *)
Fixpoint index_loop (n : nat) (i prev threadSize dataSize : Z) : outcome (list Z) :=
  match n with
  | O => Ret []
  | S k => match trunc_conv (Z.quot (dataSize + i) threadSize) with
           | None => Panic (* implementation-defined; not reached below 2^53 *)
           | Some q => obind (index_loop k (i + 1) (prev + q) threadSize dataSize)
                             (fun l => Ret (prev + q :: l))
           end
  end.

(** modelutil.go:32-41, [IndexPerThread]. [make] with a negative length and the write to
    [indexPerThread[0]] of an empty slice panic. For threadSize 0 the write of line 35
    overwrites the only entry. *)
Definition index_per_thread (threadSize dataSize : Z) : outcome (list Z) :=
  if threadSize <? 0 then Panic
  else if threadSize =? 0 then Ret [dataSize]
  else obind (index_loop (Z.to_nat (threadSize - 1)) 1 0 threadSize dataSize)
             (fun l => Ret (0 :: l ++ [dataSize])).
