(** * When the shared memory of Model/RaceHS.v represents a heap of Huffman nodes *)
From Verif.Lib Require Import Go F64 F64Facts.
From Verif.Spec Require Import Rows Race.
From Verif.Model Require Import Matrix Huffman RaceHS.

(** The elements of a slice in the shared memory. *)
Definition elements (arrays : list (list (option nat))) (h : hdr) : list (option nat) := firstn (s_len h) (nth (s_arr h) arrays []).

(** A slice that denotes the list [l] of nodes. *)
Definition denotes (arrays : list (list (option nat))) (h : hdr) (l : list nat) : Prop :=
  s_arr h < length arrays /\ length (nth (s_arr h) arrays []) = s_cap h /\ s_len h <= s_cap h /\
  elements arrays h = map Some l /\ s_len h = length l.

(** Every node's cache in the memory is nil or denotes the cached path of the node of [h]. *)
Definition caches_of (h : heap) (cache : list (option hdr)) (arrays : list (list (option nat))) : Prop :=
  length cache = length h /\
  forall n, match hn_cache (hget h n), nth n cache None with
            | None, None => True
            | Some l, Some hd => denotes arrays hd l
            | _, _ => False
            end.

(** [h] is the tree with other vectors (of at most [dim] numbers) and caches. *)
Definition grown (dim : nat) (tree h : heap) : Prop :=
  length h = length tree /\ (forall n, hn_parent (hget h n) = hn_parent (hget tree n) /\ hn_code (hget h n) = hn_code (hget tree n)) /\
  (forall n, length (hn_vec (hget h n)) <= dim).

(** The memory holds the nodes [h] and the given other variables. *)
Definition holds (h : heap) (p : matrix) (next : Z) (lr : f64) (m : hmem) : Prop :=
  hm_p m = p /\ hm_next m = next /\ hm_lr m = lr /\ hm_vecs m = map hn_vec h /\ caches_of h (hm_cache m) (hm_arrays m).

(** The parameters are a matrix of [V] rows of [dim] components, the node vectors have the given lengths, and the
    generator's variable is a uint64. *)
Definition shaped (V dim : nat) (lens : list nat) (m : hmem) : Prop :=
  grid V dim (hm_p m) /\ map (@length f64) (hm_vecs m) = lens /\ is_uint64 (hm_next m).

(** The table lookup sigtable.sigmoid(y) for NaN or the float64 just below 6 (C29). *)
Inductive lookup_risk (sig : f64 -> outcome f64) : forall A, (f64 -> hmem -> outcome (hmem * A)) -> Prop :=
| risk_lookup y : isnan y = true \/ feq y (f_of_ratio false (6 * 2 ^ 50 - 1) (2 ^ 50)) = true -> lookup_risk sig f64 (get_or_panic (fun _ => sig y)).
(** What can go wrong while paths are being built: [n.cache[:depth]] of GetPath, and following a nil element
    of the path it returned; or the lookup. *)
Inductive path_risk (sig : f64 -> outcome f64) : forall A, (f64 -> hmem -> outcome (hmem * A)) -> Prop :=
| risk_cut n depth : path_risk sig hdr (a_cut n depth)
| risk_nil : path_risk sig nat (a_node None)
| risk_other A f : lookup_risk sig A f -> path_risk sig A f.
(** The goroutine's next access is one of these. *)
Definition stands_at (risk : forall A, (f64 -> hmem -> outcome (hmem * A)) -> Prop) (p : hprog unit) : Prop :=
  match p with HAct rnd f k => risk _ f | _ => False end.

(** A whole training: iteration k starts the goroutines [ts] on the memory that the iteration before has
    left when all its goroutines were done. *)
Inductive hduring (ts : list (hprog unit)) (m0 : hmem) : nat -> hsystem -> Prop :=
| hin_first s : hruns (HSys m0 ts) s -> hduring ts m0 0 s
| hin_next k s s' : hduring ts m0 k s -> forallb hdone (hy_threads s) = true -> hruns (HSys (hy_mem s) ts) s' -> hduring ts m0 (S k) s'.

(** At every moment of every iteration the memory satisfies [inv], and every unfinished goroutine can take its
    next step unless it stands at a risk. *)
Definition hsurvives (inv : hmem -> Prop) (risk : forall A, (f64 -> hmem -> outcome (hmem * A)) -> Prop) (ts : list (hprog unit)) (m0 : hmem) : Prop :=
  forall k s, hduring ts m0 k s -> inv (hy_mem s) /\
    forall i p x, nth_error (hy_threads s) i = Some p -> hdone p = false -> (exists q, hexec x (hy_mem s) p = Ret q) \/ stands_at risk p.

(** A step of some goroutine, before which currentlr may have been written. *)
Definition turn (s s' : hsystem) : Prop :=
  exists lr i p x m' p', nth_error (hy_threads s) i = Some p /\ hdone p = false /\
    hexec x (HMem (hm_p (hy_mem s)) (hm_vecs (hy_mem s)) (hm_cache (hy_mem s)) (hm_arrays (hy_mem s)) (hm_next (hy_mem s)) lr) p = Ret (m', p') /\
    s' = HSys m' (upd (hy_threads s) i p').
