(** * The context-window loop

    The same loop occurs three times: pkg/model/word2vec/model.go:60-77 (skipGram.trainOne),
    pkg/model/word2vec/model.go:133-144 (cbow.dowith) and pkg/model/lexvec/lexvec.go:202-217
    (trainOne). [body c] is what the loop does with position [c]. *)
From Verif.Lib Require Import Go.
Local Open Scope Z_scope.

(** model.go:61-67, model.go:134-140, lexvec.go:203-209: the two [continue]s, for the [n]
    iterations starting at [a]. *)
Fixpoint win_loop {St} (body : Z -> St -> outcome St) (len pos window : Z)
  (n : nat) (a : Z) (st : St) : outcome St :=
  match n with
  | O => Ret st
  | S k =>
      obind (if a =? window then Ret st
             else let c := pos - window + a in
                  if (c <? 0) || (c >=? len) then Ret st else body c st)
            (win_loop body len pos window k (a + 1))
  end.

(** model.go:60, model.go:133, lexvec.go:202: [for a := del; a < window*2+1-del; a++]. *)
Definition windowed {St} (body : Z -> St -> outcome St) (len pos window del : Z) (st : St) : outcome St :=
  win_loop body len pos window (Z.to_nat (window * 2 + 1 - del - del)) del st.
