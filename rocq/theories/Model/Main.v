(** * Model of whole commands: the RunE of cmd/model/*/*.go and cmd/query/query.go after the flags

    [wego <command> args]: cobra parses the flags (Model/Flags.v); on an error it prints it and the
    usage, with --help only the help; otherwise RunE calls [execute] (Model/Cmd.v). *)
From Verif.Lib Require Import Go F64.
From Verif.Model Require Import Reader Search Cmd Flags.
Local Open Scope Z_scope.

(** cmd/model/word2vec/word2vec.go:37-53 and 60-95 (the same in glove.go, lexvec.go). [train_for opts typ]:
    NewForOptions, Train and Save; [dir] is filepath.Dir. The arguments that are not flags are ignored
    ([RunE] does not use them). *)
Definition train_main {T} (train_for : T -> string -> reader -> outcome (gostring * outcome unit)) (dir : gostring -> gostring) (profile : gostring)
  (o : opsys) (vars : outcome (train_vars T * list gostring)) (fs : fsys) : fsys * outcome unit :=
  match vars with
  | Ret (s, _) => if tv_help s then (fs, Ret tt)
                  else execute (train_for (tv_opts s) (tv_vec_type s)) profile o (tv_prof s) fs (dir (tv_output s)) (tv_output s) (tv_input s)
  | Err m => (fs, Err m)
  | Panic => (fs, Panic)
  end.

(** cmd/query/query.go:33-45 and 52-77: the rows printed, [None] for the help. *)
Definition query_main (pf : gostring -> option f64) (o : opsys) (vars : outcome (query_vars * list gostring)) (fs : fsys) : outcome (option (list neighbor)) :=
  obind vars (fun '(s, words) =>
  if qv_help s then Ret None
  else obind (query pf o fs (qv_input s) words (qv_rank s)) (fun rows => Ret (Some rows))).
