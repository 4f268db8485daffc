(** * Numbers that are no longer numbers *)
From Verif.Lib Require Import Go F64 F64Facts.
From Verif.Model Require Import Matrix.

(** From [m] to [m'] no infinite or NaN component has become finite again, and no NaN component has
    become anything else. *)
Definition lasting (m m' : matrix) : Prop :=
  m_row m' = m_row m /\ m_col m' = m_col m /\ length (m_array m') = length (m_array m) /\
  forall i x, nth_error (m_array m) i = Some x -> is_fin x = false ->
    exists y, nth_error (m_array m') i = Some y /\ is_fin y = false /\ (isnan x = true -> isnan y = true).

(** Some component, every component of the vector is NaN. *)
Definition some_nan (v : list f64) : Prop := exists x, In x v /\ isnan x = true.
Definition all_nan (v : list f64) : Prop := Forall (fun x => isnan x = true) v.
