(** * Model of the learning-rate schedule: observe in word2vec.go:207-227 and lexvec.go:234-254 *)
From Verif.Lib Require Import Go F64.
Local Open Scope Z_scope.

(** The options that matter, and [Len()] of the corpus. word2vec.go:207-227. *)
Record lr_opts := LrOpts {
  lo_init : f64; lo_min : f64; lo_batch : Z; lo_len : Z; lo_verbose : bool; lo_logbatch : Z }.

(** word2vec.go:215 / lexvec.go:242. *)
Definition lr_formula (o : lr_opts) (cnt : Z) : f64 :=
  fmul (lo_init o) (fsub (f_of_Z 1) (fdiv (f_of_Z cnt) (f_of_Z (lo_len o)))).

(** word2vec.go:210-222: the loop body for the [cnt]-th tick of an iteration; [lr] is currentlr.
    Printing is modelled only by its division by LogBatch. *)
Definition lr_tick (o : lr_opts) (cnt : Z) (lr : f64) : outcome f64 :=
  if lo_batch o =? 0 then Panic
  else
    let lr' := if Z.rem cnt (lo_batch o) =? 0 then
                 if flt lr (lo_min o) then lo_min o else lr_formula o cnt
               else lr in
    if lo_verbose o && (lo_logbatch o =? 0) then Panic else Ret lr'.

(** A sequence of ticks: the counters 1, 2, .. of one iteration, or any interleaving of the
    counters of several iterations (an observer may still handle its last tick when the next
    iteration has begun). word2vec.go:209-223 / lexvec.go:236-250. *)
Fixpoint lr_ticks (o : lr_opts) (cnts : list Z) (lr : f64) : outcome f64 :=
  match cnts with
  | [] => Ret lr
  | c :: rest => obind (lr_tick o c lr) (lr_ticks o rest)
  end.
