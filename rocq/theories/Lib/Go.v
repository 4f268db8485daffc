(** * Go basics used by every model file.

    Nothing here models a particular function of the repository: these are the
    Go language notions (panics, strings as byte sequences, maps, slices) that
    the model files are written in. *)
From Coq Require Export Strings.String Strings.Byte.
From Coq Require Export Arith ZArith Bool List.
Export ListNotations.

(** The result of a Go call that can fail: a value, an [error] value, or a run-time
    panic (index out of range, nil/zero division, slice bounds, ...). *)
Inductive outcome (A : Type) : Type :=
| Ret (a : A)
| Err (e : string)
| Panic.
Arguments Ret {A} a.
Arguments Err {A} e.
Arguments Panic {A}.

Definition obind {A B} (o : outcome A) (f : A -> outcome B) : outcome B :=
  match o with
  | Ret a => f a
  | Err e => Err e
  | Panic => Panic
  end.

(** Go strings are byte sequences. *)
Notation gostring := (list byte).
Definition byte_eq_dec : forall x y : byte, {x = y} + {x <> y} := Byte.byte_eq_dec.
Definition gostring_eq_dec : forall x y : gostring, {x = y} + {x <> y} :=
  list_eq_dec byte_eq_dec.
Definition gseqb (x y : gostring) : bool := if gostring_eq_dec x y then true else false.

(** Literals: [bs "apple"]. *)
Definition bs (s : string) : gostring := list_byte_of_string s.

(** Go maps: association lists. [mset] overwrites in place or appends, so keys stay
    unique. The list order carries no meaning: code that ranges over a map is modelled
    with an arbitrary permutation of the bindings. *)
Section GoMap.
  Context {K V : Type} (eqd : forall x y : K, {x = y} + {x <> y}).

  Fixpoint mget (k : K) (m : list (K * V)) : option V :=
    match m with
    | [] => None
    | (k', v) :: m' => if eqd k k' then Some v else mget k m'
    end.

  Fixpoint mset (k : K) (v : V) (m : list (K * V)) : list (K * V) :=
    match m with
    | [] => [(k, v)]
    | (k', v') :: m' => if eqd k k' then (k, v) :: m' else (k', v') :: mset k v m'
    end.
End GoMap.

(** In-place update of a slice element [l[i] = x] (no effect out of range; the models
    check the index first and panic). *)
Fixpoint upd {A} (l : list A) (i : nat) (x : A) : list A :=
  match l, i with
  | [], _ => []
  | _ :: l', O => x :: l'
  | y :: l', S i' => y :: upd l' i' x
  end.

(** Indexing a slice with a Go [int]: [None] is the index-out-of-range panic. *)
Definition zindex {A} (l : list A) (i : Z) : option A :=
  if (i <? 0)%Z then None else nth_error l (Z.to_nat i).
