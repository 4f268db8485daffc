(** * Specification vocabulary for the training steps *)
From Verif.Lib Require Import Go F64.
From Verif.Model Require Import ModelUtil.
Local Open Scope Z_scope.

(** Sequential composition over a list, stopping at the first failure. *)
Fixpoint ofold {A S} (f : A -> S -> outcome S) (l : list A) (s : S) : outcome S :=
  match l with
  | [] => Ret s
  | a :: l' => obind (f a s) (ofold f l')
  end.

(** The positions at distance 1..r from [pos] in a document of length [len], increasing. *)
Definition context (pos r : Z) (len : nat) : list Z :=
  filter (fun c => (1 <=? Z.abs (c - pos)) && (Z.abs (c - pos) <=? r)) (map Z.of_nat (seq 0 len)).

(** Component-wise operations on vectors of equal length. *)
Definition zipw (f : f64 -> f64 -> f64) (x y : list f64) : list f64 :=
  map (fun p => f (fst p) (snd p)) (combine x y).
(** x + y *)
Definition vplus (x y : list f64) : list f64 := zipw fadd x y.
(** x + g*y *)
Definition axpy (x : list f64) (g : f64) (y : list f64) : list f64 :=
  zipw (fun a b => fadd a (fmul g b)) x y.
(** Inner product, summed from the left. *)
Definition dot (x y : list f64) : f64 :=
  fold_left (fun acc p => fadd acc (fmul (fst p) (snd p))) (combine x y) fzero.

(** The prediction s for an inner product: 0 up to -6, 1 from 6, the table in between. *)
Definition predict (sig : f64 -> outcome f64) (x : f64) : outcome f64 :=
  if fle x (f_of_Z (-6)) then Ret (f_of_Z 0)
  else if fge x (f_of_Z 6) then Ret (f_of_Z 1)
  else sig x.

(** The k-th value drawn from state [next] with bound [v]. *)
Definition draw (next v : Z) (k : nat) : nat := Z.to_nat (Nat.iter (S k) lcg next mod v).

(** One step of negative sampling on row [r] with label 1 or 0: rows of the context matrix and
    the accumulated change [tmp]. *)
Definition ns_row_step (sig : f64 -> outcome f64) (lr : f64) (ctx : list f64)
  (step : nat * Z) (st : list (list f64) * list f64) : outcome (list (list f64) * list f64) :=
  let '(r, label) := step in
  let '(rows, tmp) := st in
  let row := nth r rows [] in
  obind (predict sig (dot row ctx)) (fun s =>
  let g := fmul (fsub (f_of_Z label) s) lr in
  Ret (upd rows r (axpy row g ctx), axpy tmp g row)).

(** The steps: the word itself with label 1, then each draw different from it with label 0. *)
Definition ns_steps (id : nat) (next v : Z) (k : nat) : list (nat * Z) :=
  (id, 1) :: map (fun r => (r, 0))
                 (filter (fun r => negb (Nat.eqb r id)) (map (draw next v) (seq 0 k))).

(** Hierarchical softmax: [steps] are (inner node, code of the next node on the path);
    [vecs] gives the node vectors. Stops at the first inner product outside (-6, 6). *)
Fixpoint hs_steps_run (sig : f64 -> outcome f64) (lr : f64) (ctx : list f64)
  (steps : list (nat * nat)) (vecs : nat -> list f64) (tmp : list f64)
  : outcome ((nat -> list f64) * list f64) :=
  match steps with
  | [] => Ret (vecs, tmp)
  | (p, code) :: rest =>
      let v := vecs p in
      let x := dot ctx v in
      if fle x (f_of_Z (-6)) || fge x (f_of_Z 6) then Ret (vecs, tmp)
      else obind (sig x) (fun s =>
           let g := fmul (fsub (fsub (f_of_Z 1) (f_of_Z (Z.of_nat code))) s) lr in
           hs_steps_run sig lr ctx rest
             (fun q => if Nat.eqb q p then axpy v g ctx else vecs q) (axpy tmp g v))
  end.

(** Consecutive nodes of a path: (node, code of its successor). *)
Fixpoint path_steps (code : nat -> nat) (path : list nat) : list (nat * nat) :=
  match path with
  | p :: ((q :: _) as rest) => (p, code q) :: path_steps code rest
  | _ => []
  end.
