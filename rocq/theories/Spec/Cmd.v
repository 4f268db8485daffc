(** * What one can rely on from the operating system *)
From Verif.Lib Require Import Go.
From Verif.Model Require Import Cmd.

(** MkdirAll only adds directories. *)
Definition sane (o : opsys) : Prop := forall fs d fs' b, os_mkdir o fs d = (fs', b) -> forall p,
  match fs p with Some n => fs' p = Some n | None => fs' p = None \/ fs' p = Some Dir end.

(** An operating system that allows everything and in which the directories are already there. *)
Definition permissive : opsys :=
  {| os_create := fun _ _ => true; os_open := fun _ _ => true; os_mkdir := fun fs _ => (fs, true) |}.
