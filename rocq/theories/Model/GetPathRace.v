(** * Model of concurrent calls of pkg/corpus/dictionary/node/node.go GetPath on one node

    Any number of goroutines run GetPath on the same node, interleaved statement by
    statement (sequentially consistent). [up] is the immutable chain
    [n, n.Parent, n.Parent.Parent, ...]. Slices are modelled with their backing arrays, because
    append, the in-place reversal and [s[:d]] (bounded by the capacity) depend on them. *)
From Verif.Lib Require Import Go.

(** A Go slice header of [[]*Node]. [n.cache], node.go:18. *)
Record hdr := Hdr { s_arr : nat; s_len : nat; s_cap : nat }.

(** The program counter and local variables of one call; [depth] is the parameter. node.go:26-43. *)
Inductive pc :=
| PNil                      (* node.go:27  if n.cache == nil *)
| PMake                     (* node.go:33  n.cache = make([]*Node, 0) *)
| PLoop (k : nat)           (* node.go:34-36  p is the k-th node of the chain *)
| PRev (h : hdr) (i j : Z)  (* node.go:28-32, called at 37  re(n.cache) on the header read at the call *)
| PCmp                      (* node.go:39  if depth > len(n.cache) *)
| PClamp                    (* node.go:40  depth = len(n.cache) *)
| PSlice                    (* node.go:42  return n.cache[:depth] *)
| PDone (h : hdr)           (* returned *)
| PPanic.

(** One goroutine inside GetPath, node.go:26-43. *)
Record thread := Thread { t_pc : pc; t_depth : Z }.

(** The node's [cache] (node.go:18), the arrays behind the slices, and the goroutines. *)
Record rstate := RState {
  r_cache : option hdr;       (* n.cache *)
  r_arrays : list (list nat); (* backing arrays, each as long as its capacity *)
  r_threads : list thread
}.

(** A backing array; used for node.go:30, 35. *)
Definition arr_get (s : rstate) (a : nat) : list nat := nth a (r_arrays s) [].

(** The nodes a slice header denotes. Used for node.go:30, 35, 42. *)
Definition contents (s : rstate) (h : hdr) : list nat := firstn (s_len h) (arr_get s (s_arr h)).

(** The goroutine goes on to another statement of node.go:26-43. *)
Definition set_thread (s : rstate) (t : nat) (p : pc) (d : Z) : rstate :=
  RState (r_cache s) (r_arrays s) (upd (r_threads s) t (Thread p d)).

(** Go's [append(h, x)]: in place while there is capacity, else a new backing array of
    capacity 1 (from 0) or twice the old one. node.go:35. *)
Definition go_append (s : rstate) (h : hdr) (x : nat) : rstate * hdr :=
  if s_len h <? s_cap h then
    (RState (r_cache s) (upd (r_arrays s) (s_arr h) (upd (arr_get s (s_arr h)) (s_len h) x)) (r_threads s),
     Hdr (s_arr h) (S (s_len h)) (s_cap h))
  else
    let cap' := if s_cap h =? 0 then 1 else 2 * s_cap h in
    let a := contents s h ++ x :: repeat 0 (cap' - S (s_len h)) in
    (RState (r_cache s) (r_arrays s ++ [a]) (r_threads s), Hdr (length (r_arrays s)) (S (s_len h)) cap').

(** node.go:35, the assignment to [n.cache]. *)
Definition set_cache (s : rstate) (h : hdr) : rstate := RState (Some h) (r_arrays s) (r_threads s).

(** [len(n.cache)], node.go:39-40. *)
Definition len_cache (s : rstate) : nat := match r_cache s with None => 0 | Some h => s_len h end.

Section Race.
  Variable up : list nat.

  (** node.go:26-43: one statement of thread [t]; [None] if it has finished. *)
  Definition rstep (s : rstate) (t : nat) : option rstate :=
    match nth_error (r_threads s) t with
    | None => None
    | Some (Thread p d) =>
      match p with
      | PNil => Some (set_thread s t (match r_cache s with None => PMake | Some _ => PCmp end) d)
      | PMake =>
          let s' := RState (Some (Hdr (length (r_arrays s)) 0 0)) (r_arrays s ++ [[]]) (r_threads s) in
          Some (set_thread s' t (PLoop 0) d)
      | PLoop k =>
          match r_cache s with
          | None => None (* unreachable: the cache is never set back to nil *)
          | Some h =>
            match nth_error up k with
            | None => Some (set_thread s t (PRev h 0 (Z.of_nat (s_len h) - 1)) d)
            | Some x => let '(s', h') := go_append s h x in
                        Some (set_thread (set_cache s' h') t (PLoop (S k)) d)
            end
          end
      | PRev h i j =>
          if (i <? j)%Z then
            let a := arr_get s (s_arr h) in
            let a' := upd (upd a (Z.to_nat i) (nth (Z.to_nat j) a 0)) (Z.to_nat j) (nth (Z.to_nat i) a 0) in
            let s' := RState (r_cache s) (upd (r_arrays s) (s_arr h) a') (r_threads s) in
            Some (set_thread s' t (PRev h (i + 1) (j - 1)) d)
          else Some (set_thread s t PCmp d)
      | PCmp => Some (set_thread s t (if (d >? Z.of_nat (len_cache s))%Z then PClamp else PSlice) d)
      | PClamp => Some (set_thread s t PSlice (Z.of_nat (len_cache s)))
      | PSlice =>
          match r_cache s with
          | None => None
          | Some h => if ((d <? 0) || (d >? Z.of_nat (s_cap h)))%Z then Some (set_thread s t PPanic d)
                      else Some (set_thread s t (PDone (Hdr (s_arr h) (Z.to_nat d) (s_cap h))) d)
          end
      | PDone _ => None
      | PPanic => None
      end
    end.

  (** Executing a schedule (a list of thread numbers). Statements of node.go:26-43. *)
  Fixpoint rrun (s : rstate) (sched : list nat) : option rstate :=
    match sched with
    | [] => Some s
    | t :: sched' => match rstep s t with None => None | Some s' => rrun s' sched' end
    end.
End Race.

(** All goroutines about to call GetPath with the given depths on a node with nil cache. node.go:26. *)
Definition rcold (depths : list Z) : rstate := RState None [] (map (Thread PNil) depths).
