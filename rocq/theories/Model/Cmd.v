(** * Model of the commands: cmd/model/{word2vec,glove,lexvec} (the same code three times; line numbers
    of word2vec.go, identical in the other two), cmd/query/query.go, cmd/query/console/console.go

    A file system maps canonical path names to a directory or a file with its contents. What the
    operating system decides (permissions, full disks) is an oracle. Not modelled: os.Stat failing for
    another reason than absence, links, concurrent changes by other processes. The flags are in Model/Flags.v. *)
From Verif.Lib Require Import Go F64.
From Verif.Model Require Import Reader Embedding Search Console.
Local Open Scope Z_scope.

(** What a path names; seen by os.Stat at word2vec.go:56. *)
Inductive node := Dir | File (contents : gostring).
(** The file system the commands work on (word2vec.go:60-95, query.go:52-77). *)
Definition fsys : Type := gostring -> option node.
(** Writing a file: os.Create at word2vec.go:62, 78 and the output of Save, :94. *)
Definition fs_set (fs : fsys) (p : gostring) (n : node) : fsys := fun q => if gseqb q p then Some n else fs q.

(** The operating system: may [os.Create], [os.Open] succeed; what [os.MkdirAll] does. Used at word2vec.go:62, 75, 78, 82 and query.go:61. *)
Record opsys := { os_create : fsys -> gostring -> bool;
                  os_open : fsys -> gostring -> bool;
                  os_mkdir : fsys -> gostring -> fsys * bool }.

(** word2vec.go:55-58, [fileExists]. *)
Definition file_exists (fs : fsys) (p : gostring) : bool := match fs p with Some _ => true | None => false end.
(** [os.Create]: an empty file, an existing one is truncated; a directory cannot be created over. word2vec.go:62, 78. *)
Definition create (o : opsys) (fs : fsys) (p : gostring) : fsys * outcome unit :=
  if match fs p with Some Dir => false | _ => os_create o fs p end then (fs_set fs p (File []), Ret tt) else (fs, Err "create").
(** [os.Open] for reading: the contents; a directory opens but cannot be read. word2vec.go:82, query.go:61. *)
Definition open (o : opsys) (fs : fsys) (p : gostring) : outcome reader :=
  match fs p with
  | Some (File c) => if os_open o fs p then Ret {| rd_data := c; rd_pos := 0; rd_err := false |} else Err "open"
  | Some Dir => if os_open o fs p then Ret {| rd_data := []; rd_pos := 0; rd_err := true |} else Err "open"
  | None => Err "open"
  end.

Section Train.
(** The model: [NewForOptions] and [Train] on the input, then what [Save] writes to the output and its
    result; [None] where Save is not reached. *)
Variable train : reader -> outcome (gostring * outcome unit).
(** What the profiler leaves in cpu.prof when [execute] returns (deferred [StopCPUProfile], line 67). *)
Variable profile : gostring.

(** word2vec.go:70-94. *)
Definition execute_rest (o : opsys) (fs : fsys) (dir_of_output output input : gostring) : fsys * outcome unit :=
  if file_exists fs output then (fs, Err "already existed")
  else if negb (file_exists fs input) then (fs, Err "not found")
  else match os_mkdir o fs dir_of_output with
       | (fs1, false) => (fs1, Err "mkdir")
       | (fs1, true) =>
           match create o fs1 output with
           | (fs2, Ret _) =>
               match open o fs2 input with
               | Ret r => match train r with
                          | Ret (written, res) => (fs_set fs2 output (File written), res)
                          | Err m => (fs2, Err m)
                          | Panic => (fs2, Panic)
                          end
               | Err m => (fs2, Err m)
               | Panic => (fs2, Panic)
               end
           | (fs2, r) => (fs2, r)
           end
       end.

(** word2vec.go:60-95, [execute]. *)
Definition prof_path : gostring := bs "cpu.prof".
(** word2vec.go:60-95, [execute]. *)
Definition execute (o : opsys) (prof : bool) (fs : fsys) (dir_of_output output input : gostring) : fsys * outcome unit :=
  if prof then
    match create o fs prof_path with
    | (fs1, Ret _) => let (fs2, r) := execute_rest o fs1 dir_of_output output input in
                      (fs_set fs2 prof_path (File profile), r)
    | (fs1, r) => (fs1, r)
    end
  else execute_rest o fs dir_of_output output input.
End Train.

(** query.go:52-77, [execute]: what is printed. *)
Definition query (pf : gostring -> option f64) (o : opsys) (fs : fsys) (input : gostring) (args : list gostring) (rank : Z) : outcome (list neighbor) :=
  if negb (file_exists fs input) then Err "Not such a file"
  else match args with
       | [w] => obind (open o fs input) (fun r => obind (load pf r) (fun embs => obind (searcher_new embs) (fun items =>
                search_internal items w rank)))
       | _ => Err "Input a single word"
       end.

(** cmd/query/console/console.go:55-77, [execute] up to Run. *)
Definition console_cmd (pf : gostring -> option f64) (o : opsys) (fs : fsys) (input : gostring) (rank : Z) : outcome (console * cursor) :=
  if negb (file_exists fs input) then Err "Not such a file"
  else obind (open o fs input) (fun r => obind (load pf r) (fun embs => obind (searcher_new embs) (fun items => console_new items rank))).
