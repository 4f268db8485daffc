From Verif.Lib Require Import Go.

Lemma last_app {A} (l m : list A) d : last (l ++ m) d = last m (last l d).
Proof.
  induction m as [|x m IH] using rev_ind; [rewrite app_nil_r; reflexivity|].
  rewrite app_assoc, !last_last. reflexivity.
Qed.

Lemma fold_last {O R A} (apply : O -> R -> R) (field : R -> A) (sel : O -> option A) :
  (forall o x, field (apply o x) = match sel o with Some v => v | None => field x end) ->
  forall l x, field (fold_left (fun x o => apply o x) l x) =
    last (flat_map (fun o => match sel o with Some v => [v] | None => [] end) l) (field x).
Proof.
  intros H. induction l as [|o l IH]; intros x; [reflexivity|]. cbn [fold_left flat_map].
  rewrite IH, H, last_app. destruct (sel o); reflexivity.
Qed.

Lemma fold_const {O R A} (apply : O -> R -> R) (field : R -> A) :
  (forall o x, field (apply o x) = field x) -> forall l x, field (fold_left (fun x o => apply o x) l x) = field x.
Proof. intros H. induction l as [|o l IH]; intros x; [reflexivity|]. cbn [fold_left]. rewrite IH, H. reflexivity. Qed.
