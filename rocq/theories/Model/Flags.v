(** * Model of the command line: pkg/model/*/options.go (LoadForCmd), cmd/model/cmdutil/cmdutil.go,
    cmd/query/cmdutil/cmdutil.go, the commands' New, and of pflag 1.0.5 as far as they use it

    pflag and cobra are not part of the repository: [parse_args] is written from their behaviour (long
    and short flags, values attached or in the next argument, switches, [--]). Commands are taken after
    cobra has chosen them, that is for [wego <command> args]. strconv.ParseInt(_, 0, 64) and
    strconv.ParseFloat(_, 64) are arguments. Error messages are not modelled in detail. *)
From Verif.Lib Require Import Go F64.
From Verif.Model Require Import Options Reader Cmd.
Local Open Scope Z_scope.

(** ** Flags *)

(** A flag as registered: name, one-letter shorthand, whether its value may be missing (switches have
    NoOptDefVal "true"), and what Set does to the destination variables. pflag; used by word2vec/options.go:106-126, glove/options.go:93-111, lexvec/options.go:97-117. *)
Record flag (St : Type) := Flag {
  fl_name : gostring; fl_short : option byte; fl_switch : bool; fl_set : gostring -> St -> option St }.
Arguments Flag {St}. Arguments fl_name {St}. Arguments fl_short {St}. Arguments fl_switch {St}. Arguments fl_set {St}.

(** FlagSet.AddFlag panics if the name or the shorthand is taken. The XVar functions store the default
    in the destination first. pflag; [cmd.Flags()] at cmdutil.go:32-46. *)
Definition flagset (St : Type) : Type := (list (flag St) * St)%type.
(** pflag, AddFlag; no code of its own in the repository, used for cmdutil.go:32-46. *)
Definition same_short (a b : option byte) : bool :=
  match a, b with Some x, Some y => if byte_eq_dec x y then true else false | _, _ => false end.
(** pflag, AddFlag: called for every line of word2vec/options.go:107-125. *)
Definition add_flag {St} (f : flag St) (default : St -> St) (fs : flagset St) : outcome (flagset St) :=
  if existsb (fun g => gseqb (fl_name g) (fl_name f) || same_short (fl_short g) (fl_short f)) (fst fs) then Panic
  else Ret (fst fs ++ [f], default (snd fs)).

(** A call of one of the XVar functions: what it registers, and the default it stores. E.g. cmdutil.go:33. *)
Definition registration (St : Type) : Type := (flag St * (St -> St))%type.
(** The calls in the order of the code, word2vec.go:47-50. *)
Fixpoint add_flags {St} (rs : list (registration St)) (fs : flagset St) : outcome (flagset St) :=
  match rs with
  | [] => Ret fs
  | (f, d) :: rs' => obind (add_flag f d fs) (add_flags rs')
  end.

(** strconv.ParseBool. pflag, for the switches at cmdutil.go:41. *)
Definition parse_bool (v : gostring) : option bool :=
  if existsb (gseqb v) (map bs ["1"; "t"; "T"; "TRUE"; "true"; "True"]%string) then Some true
  else if existsb (gseqb v) (map bs ["0"; "f"; "F"; "FALSE"; "false"; "False"]%string) then Some false
  else None.

Section Vars.
Context {St : Type}.
Variables (pint : gostring -> option Z) (pfloat : gostring -> option f64).
(** IntVar/IntVarP, Float64Var, StringVar/StringVarP, BoolVar; [put] assigns the destination. E.g. word2vec/options.go:107. *)
Definition int_var (put : Z -> St -> St) (name : string) (short : option byte) (default : Z) : registration St :=
  (Flag (bs name) short false (fun v s => option_map (fun x => put x s) (pint v)), put default).
(** Float64Var, e.g. word2vec/options.go:111. *)
Definition float_var (put : f64 -> St -> St) (name : string) (short : option byte) (default : f64) : registration St :=
  (Flag (bs name) short false (fun v s => option_map (fun x => put x s) (pfloat v)), put default).
(** StringVarP, e.g. cmdutil.go:33. *)
Definition string_var (put : gostring -> St -> St) (name : string) (short : option byte) (default : gostring) : registration St :=
  (Flag (bs name) short false (fun v s => Some (put v s)), put default).
(** BoolVar, e.g. cmdutil.go:41. *)
Definition bool_var (put : bool -> St -> St) (name : string) (short : option byte) (default : bool) : registration St :=
  (Flag (bs name) short true (fun v s => option_map (fun x => put x s) (parse_bool v)), put default).
End Vars.

(** ** Parsing the arguments (pflag's parseArgs, parseLongArg, parseShortArg, parseSingleShortArg) *)
Section Parse.
Context {St : Type}.
Variable fs : list (flag St).

(** pflag, parseLongArg; called for word2vec.go:37-53 by cobra. *)
Definition find_long (name : gostring) : option (flag St) := find (fun f => gseqb (fl_name f) name) fs.
(** pflag, parseSingleShortArg; called for word2vec.go:37-53 by cobra. *)
Definition find_short (c : byte) : option (flag St) := find (fun f => same_short (fl_short f) (Some c)) fs.

(** [0 < len(s) && s[0] == b]. In pflag, called for word2vec.go:37-53. *)
Definition head_is (b : byte) (s : gostring) : bool := match s with c :: _ => Byte.eqb c b | [] => false end.

(** strings.SplitN(s, "=", 2). In pflag, called for word2vec.go:37-53. *)
Fixpoint split_eq (s : gostring) : gostring * option gostring :=
  match s with
  | [] => ([], None)
  | b :: s' => if Byte.eqb b x3d then ([], Some s') else let (n, v) := split_eq s' in (b :: n, v)
  end.

(** What one argument does: the flags it sets, and a flag that takes the next argument as its value. In pflag, called for word2vec.go:37-53. *)
Definition sets : Type := (list (flag St * gostring) * option (flag St))%type.

(** parseLongArg, for the text after the dashes. In pflag, called for word2vec.go:37-53. *)
Definition long_arg (s : gostring) : outcome sets :=
  if (length s =? 0)%nat || head_is x2d s || head_is x3d s then Err "bad flag syntax"
  else
    let (name, v) := split_eq s in
    match find_long name with
    | None => Err "unknown flag"
    | Some f => match v with
                | Some v => Ret ([(f, v)], None)
                | None => if fl_switch f then Ret ([(f, bs "true")], None) else Ret ([], Some f)
                end
    end.

(** parseShortArg and parseSingleShortArg, for the text after the dash. In pflag, called for word2vec.go:37-53. *)
Definition test_prefix (s : gostring) : bool := gseqb (firstn 5 s) (bs "test.").
(** pflag, parseShortArg and parseSingleShortArg; called for word2vec.go:37-53. *)
Fixpoint short_arg (s : gostring) : outcome sets :=
  match s with
  | [] => Ret ([], None)
  | c :: rest =>
      if test_prefix s then Ret ([], None)
      else match find_short c with
           | None => Err "unknown shorthand flag"
           | Some f =>
               if (2 <=? length rest)%nat && head_is x3d rest then Ret ([(f, tl rest)], None)
               else if fl_switch f then obind (short_arg rest) (fun '(l, p) => Ret ((f, bs "true") :: l, p))
               else if (1 <=? length rest)%nat then Ret ([(f, rest)], None)
               else Ret ([], Some f)
           end
  end.

(** parseArgs: the settings in order, and the arguments that are not flags. In pflag, called for word2vec.go:37-53. *)
Fixpoint parse_args (args : list gostring) : outcome (list (flag St * gostring) * list gostring) :=
  match args with
  | [] => Ret ([], [])
  | a :: rest =>
      if negb (head_is x2d a) || (length a =? 1)%nat then obind (parse_args rest) (fun '(ls, ps) => Ret (ls, a :: ps))
      else if head_is x2d (tl a) && (length a =? 2)%nat then Ret ([], rest)
      else obind (if head_is x2d (tl a) then long_arg (tl (tl a)) else short_arg (tl a)) (fun '(l, p) =>
           match p with
           | None => obind (parse_args rest) (fun '(ls, ps) => Ret (l ++ ls, ps))
           | Some f => match rest with
                       | [] => Err "flag needs an argument"
                       | v :: rest' => obind (parse_args rest') (fun '(ls, ps) => Ret (l ++ (f, v) :: ls, ps))
                       end
           end)
  end.

(** Calling Set for every setting; the first value that a flag rejects ends the command. In pflag, called for word2vec.go:37-53. *)
Fixpoint apply_sets (l : list (flag St * gostring)) (s : St) : outcome St :=
  match l with
  | [] => Ret s
  | (f, v) :: l' => match fl_set f v s with Some s' => apply_sets l' s' | None => Err "invalid argument" end
  end.
End Parse.

(** Registering the flags of a command and parsing its arguments: the destination variables and the
    remaining arguments. word2vec.go:37-53 (with wego.go:44-51 and cobra). *)
Definition parse_cmd {St} (rs : list (registration St)) (zero : St) (args : list gostring) : outcome (St * list gostring) :=
  obind (add_flags rs ([], zero)) (fun '(fs, s) =>
  obind (parse_args fs args) (fun '(l, pos) => obind (apply_sets l s) (fun s' => Ret (s', pos)))).

(** ** The flags of the commands *)
Section Commands.
Variables (pint : gostring -> option Z) (pfloat : gostring -> option f64).

(** cmd/model/word2vec/word2vec.go:30-35 (the same in glove.go and lexvec.go), the options of New
    (word2vec.go:37), and cobra's own --help. *)
Record train_vars (T : Type) := TrainVars {
  tv_input : gostring; tv_output : gostring; tv_prof : bool; tv_vec_type : string; tv_opts : T; tv_help : bool }.
Arguments TrainVars {T}. Arguments tv_input {T}. Arguments tv_output {T}. Arguments tv_prof {T}. Arguments tv_vec_type {T}.
Arguments tv_opts {T}. Arguments tv_help {T}.

(** Assigning [inputFile], word2vec.go:31. *)
Definition put_input {T} (v : gostring) (s : train_vars T) := TrainVars v (tv_output s) (tv_prof s) (tv_vec_type s) (tv_opts s) (tv_help s).
(** Assigning [outputFile], word2vec.go:32. *)
Definition put_output {T} (v : gostring) (s : train_vars T) := TrainVars (tv_input s) v (tv_prof s) (tv_vec_type s) (tv_opts s) (tv_help s).
(** Assigning [prof], word2vec.go:33. *)
Definition put_prof {T} (v : bool) (s : train_vars T) := TrainVars (tv_input s) (tv_output s) v (tv_vec_type s) (tv_opts s) (tv_help s).
(** Assigning [vectorType], word2vec.go:34. *)
Definition put_vec_type {T} (v : gostring) (s : train_vars T) :=
  TrainVars (tv_input s) (tv_output s) (tv_prof s) (string_of_list_byte v) (tv_opts s) (tv_help s).
(** cobra sets its own variable; see word2vec.go:37-53. *)
Definition put_help {T} (v : bool) (s : train_vars T) := TrainVars (tv_input s) (tv_output s) (tv_prof s) (tv_vec_type s) (tv_opts s) v.
(** [&opts.F], where [put] assigns that field. word2vec/options.go:107-125. *)
Definition in_opts {T V} (put : V -> T -> T) (v : V) (s : train_vars T) : train_vars T :=
  TrainVars (tv_input s) (tv_output s) (tv_prof s) (tv_vec_type s) (put v (tv_opts s)) (tv_help s).

(** cmd/model/cmdutil/cmdutil.go:25-46, called from word2vec.go:47-50 in this order. *)
Definition common_flags {T} : list (registration (train_vars T)) :=
  [ string_var put_input "input" (Some x69) (bs "example/input.txt");
    string_var put_output "output" (Some x6f) (bs "example/word_vectors.txt");
    bool_var put_prof "prof" None false;
    string_var put_vec_type "vec-type" None (bs "single") ].
(** cobra: InitDefaultHelpFlag. Added by cobra to the command of word2vec.go:39-45. *)
Definition help_flag {T} : list (registration (train_vars T)) := [ bool_var put_help "help" (Some x68) false ].


(** word2vec: assigning one field, and the zero value of Options. [var opts word2vec.Options], word2vec.go:38. *)
Definition w2v_zero : w2v_opts := W2vOpts 0 0 false 0 fzero 0 0 0 0 0 fzero ""%string 0 ""%string fzero false 0 false 0.
(** word2vec/options.go:107: assigning [opts.BatchSize]. *)
Definition w2v_put_BatchSize (v : Z) (o : w2v_opts) : w2v_opts := W2vOpts v (w2v_Dim o) (w2v_DocInMemory o) (w2v_Goroutines o) (w2v_Initlr o) (w2v_Iter o) (w2v_LogBatch o) (w2v_MaxCount o) (w2v_MaxDepth o) (w2v_MinCount o) (w2v_MinLR o) (w2v_ModelType o) (w2v_NegativeSampleSize o) (w2v_OptimizerType o) (w2v_SubsampleThreshold o) (w2v_ToLower o) (w2v_UpdateLRBatch o) (w2v_Verbose o) (w2v_Window o).
(** word2vec/options.go:108: assigning [opts.Dim]. *)
Definition w2v_put_Dim (v : Z) (o : w2v_opts) : w2v_opts := W2vOpts (w2v_BatchSize o) v (w2v_DocInMemory o) (w2v_Goroutines o) (w2v_Initlr o) (w2v_Iter o) (w2v_LogBatch o) (w2v_MaxCount o) (w2v_MaxDepth o) (w2v_MinCount o) (w2v_MinLR o) (w2v_ModelType o) (w2v_NegativeSampleSize o) (w2v_OptimizerType o) (w2v_SubsampleThreshold o) (w2v_ToLower o) (w2v_UpdateLRBatch o) (w2v_Verbose o) (w2v_Window o).
(** word2vec/options.go:110: assigning [opts.DocInMemory]. *)
Definition w2v_put_DocInMemory (v : bool) (o : w2v_opts) : w2v_opts := W2vOpts (w2v_BatchSize o) (w2v_Dim o) v (w2v_Goroutines o) (w2v_Initlr o) (w2v_Iter o) (w2v_LogBatch o) (w2v_MaxCount o) (w2v_MaxDepth o) (w2v_MinCount o) (w2v_MinLR o) (w2v_ModelType o) (w2v_NegativeSampleSize o) (w2v_OptimizerType o) (w2v_SubsampleThreshold o) (w2v_ToLower o) (w2v_UpdateLRBatch o) (w2v_Verbose o) (w2v_Window o).
(** word2vec/options.go:109: assigning [opts.Goroutines]. *)
Definition w2v_put_Goroutines (v : Z) (o : w2v_opts) : w2v_opts := W2vOpts (w2v_BatchSize o) (w2v_Dim o) (w2v_DocInMemory o) v (w2v_Initlr o) (w2v_Iter o) (w2v_LogBatch o) (w2v_MaxCount o) (w2v_MaxDepth o) (w2v_MinCount o) (w2v_MinLR o) (w2v_ModelType o) (w2v_NegativeSampleSize o) (w2v_OptimizerType o) (w2v_SubsampleThreshold o) (w2v_ToLower o) (w2v_UpdateLRBatch o) (w2v_Verbose o) (w2v_Window o).
(** word2vec/options.go:111: assigning [opts.Initlr]. *)
Definition w2v_put_Initlr (v : f64) (o : w2v_opts) : w2v_opts := W2vOpts (w2v_BatchSize o) (w2v_Dim o) (w2v_DocInMemory o) (w2v_Goroutines o) v (w2v_Iter o) (w2v_LogBatch o) (w2v_MaxCount o) (w2v_MaxDepth o) (w2v_MinCount o) (w2v_MinLR o) (w2v_ModelType o) (w2v_NegativeSampleSize o) (w2v_OptimizerType o) (w2v_SubsampleThreshold o) (w2v_ToLower o) (w2v_UpdateLRBatch o) (w2v_Verbose o) (w2v_Window o).
(** word2vec/options.go:112: assigning [opts.Iter]. *)
Definition w2v_put_Iter (v : Z) (o : w2v_opts) : w2v_opts := W2vOpts (w2v_BatchSize o) (w2v_Dim o) (w2v_DocInMemory o) (w2v_Goroutines o) (w2v_Initlr o) v (w2v_LogBatch o) (w2v_MaxCount o) (w2v_MaxDepth o) (w2v_MinCount o) (w2v_MinLR o) (w2v_ModelType o) (w2v_NegativeSampleSize o) (w2v_OptimizerType o) (w2v_SubsampleThreshold o) (w2v_ToLower o) (w2v_UpdateLRBatch o) (w2v_Verbose o) (w2v_Window o).
(** word2vec/options.go:113: assigning [opts.LogBatch]. *)
Definition w2v_put_LogBatch (v : Z) (o : w2v_opts) : w2v_opts := W2vOpts (w2v_BatchSize o) (w2v_Dim o) (w2v_DocInMemory o) (w2v_Goroutines o) (w2v_Initlr o) (w2v_Iter o) v (w2v_MaxCount o) (w2v_MaxDepth o) (w2v_MinCount o) (w2v_MinLR o) (w2v_ModelType o) (w2v_NegativeSampleSize o) (w2v_OptimizerType o) (w2v_SubsampleThreshold o) (w2v_ToLower o) (w2v_UpdateLRBatch o) (w2v_Verbose o) (w2v_Window o).
(** word2vec/options.go:114: assigning [opts.MaxCount]. *)
Definition w2v_put_MaxCount (v : Z) (o : w2v_opts) : w2v_opts := W2vOpts (w2v_BatchSize o) (w2v_Dim o) (w2v_DocInMemory o) (w2v_Goroutines o) (w2v_Initlr o) (w2v_Iter o) (w2v_LogBatch o) v (w2v_MaxDepth o) (w2v_MinCount o) (w2v_MinLR o) (w2v_ModelType o) (w2v_NegativeSampleSize o) (w2v_OptimizerType o) (w2v_SubsampleThreshold o) (w2v_ToLower o) (w2v_UpdateLRBatch o) (w2v_Verbose o) (w2v_Window o).
(** word2vec/options.go:115: assigning [opts.MaxDepth]. *)
Definition w2v_put_MaxDepth (v : Z) (o : w2v_opts) : w2v_opts := W2vOpts (w2v_BatchSize o) (w2v_Dim o) (w2v_DocInMemory o) (w2v_Goroutines o) (w2v_Initlr o) (w2v_Iter o) (w2v_LogBatch o) (w2v_MaxCount o) v (w2v_MinCount o) (w2v_MinLR o) (w2v_ModelType o) (w2v_NegativeSampleSize o) (w2v_OptimizerType o) (w2v_SubsampleThreshold o) (w2v_ToLower o) (w2v_UpdateLRBatch o) (w2v_Verbose o) (w2v_Window o).
(** word2vec/options.go:116: assigning [opts.MinCount]. *)
Definition w2v_put_MinCount (v : Z) (o : w2v_opts) : w2v_opts := W2vOpts (w2v_BatchSize o) (w2v_Dim o) (w2v_DocInMemory o) (w2v_Goroutines o) (w2v_Initlr o) (w2v_Iter o) (w2v_LogBatch o) (w2v_MaxCount o) (w2v_MaxDepth o) v (w2v_MinLR o) (w2v_ModelType o) (w2v_NegativeSampleSize o) (w2v_OptimizerType o) (w2v_SubsampleThreshold o) (w2v_ToLower o) (w2v_UpdateLRBatch o) (w2v_Verbose o) (w2v_Window o).
(** word2vec/options.go:117: assigning [opts.MinLR]. *)
Definition w2v_put_MinLR (v : f64) (o : w2v_opts) : w2v_opts := W2vOpts (w2v_BatchSize o) (w2v_Dim o) (w2v_DocInMemory o) (w2v_Goroutines o) (w2v_Initlr o) (w2v_Iter o) (w2v_LogBatch o) (w2v_MaxCount o) (w2v_MaxDepth o) (w2v_MinCount o) v (w2v_ModelType o) (w2v_NegativeSampleSize o) (w2v_OptimizerType o) (w2v_SubsampleThreshold o) (w2v_ToLower o) (w2v_UpdateLRBatch o) (w2v_Verbose o) (w2v_Window o).
(** word2vec/options.go:118: assigning [opts.ModelType]. *)
Definition w2v_put_ModelType (v : gostring) (o : w2v_opts) : w2v_opts := W2vOpts (w2v_BatchSize o) (w2v_Dim o) (w2v_DocInMemory o) (w2v_Goroutines o) (w2v_Initlr o) (w2v_Iter o) (w2v_LogBatch o) (w2v_MaxCount o) (w2v_MaxDepth o) (w2v_MinCount o) (w2v_MinLR o) (string_of_list_byte v) (w2v_NegativeSampleSize o) (w2v_OptimizerType o) (w2v_SubsampleThreshold o) (w2v_ToLower o) (w2v_UpdateLRBatch o) (w2v_Verbose o) (w2v_Window o).
(** word2vec/options.go:119: assigning [opts.NegativeSampleSize]. *)
Definition w2v_put_NegativeSampleSize (v : Z) (o : w2v_opts) : w2v_opts := W2vOpts (w2v_BatchSize o) (w2v_Dim o) (w2v_DocInMemory o) (w2v_Goroutines o) (w2v_Initlr o) (w2v_Iter o) (w2v_LogBatch o) (w2v_MaxCount o) (w2v_MaxDepth o) (w2v_MinCount o) (w2v_MinLR o) (w2v_ModelType o) v (w2v_OptimizerType o) (w2v_SubsampleThreshold o) (w2v_ToLower o) (w2v_UpdateLRBatch o) (w2v_Verbose o) (w2v_Window o).
(** word2vec/options.go:120: assigning [opts.OptimizerType]. *)
Definition w2v_put_OptimizerType (v : gostring) (o : w2v_opts) : w2v_opts := W2vOpts (w2v_BatchSize o) (w2v_Dim o) (w2v_DocInMemory o) (w2v_Goroutines o) (w2v_Initlr o) (w2v_Iter o) (w2v_LogBatch o) (w2v_MaxCount o) (w2v_MaxDepth o) (w2v_MinCount o) (w2v_MinLR o) (w2v_ModelType o) (w2v_NegativeSampleSize o) (string_of_list_byte v) (w2v_SubsampleThreshold o) (w2v_ToLower o) (w2v_UpdateLRBatch o) (w2v_Verbose o) (w2v_Window o).
(** word2vec/options.go:121: assigning [opts.SubsampleThreshold]. *)
Definition w2v_put_SubsampleThreshold (v : f64) (o : w2v_opts) : w2v_opts := W2vOpts (w2v_BatchSize o) (w2v_Dim o) (w2v_DocInMemory o) (w2v_Goroutines o) (w2v_Initlr o) (w2v_Iter o) (w2v_LogBatch o) (w2v_MaxCount o) (w2v_MaxDepth o) (w2v_MinCount o) (w2v_MinLR o) (w2v_ModelType o) (w2v_NegativeSampleSize o) (w2v_OptimizerType o) v (w2v_ToLower o) (w2v_UpdateLRBatch o) (w2v_Verbose o) (w2v_Window o).
(** word2vec/options.go:122: assigning [opts.ToLower]. *)
Definition w2v_put_ToLower (v : bool) (o : w2v_opts) : w2v_opts := W2vOpts (w2v_BatchSize o) (w2v_Dim o) (w2v_DocInMemory o) (w2v_Goroutines o) (w2v_Initlr o) (w2v_Iter o) (w2v_LogBatch o) (w2v_MaxCount o) (w2v_MaxDepth o) (w2v_MinCount o) (w2v_MinLR o) (w2v_ModelType o) (w2v_NegativeSampleSize o) (w2v_OptimizerType o) (w2v_SubsampleThreshold o) v (w2v_UpdateLRBatch o) (w2v_Verbose o) (w2v_Window o).
(** word2vec/options.go:123: assigning [opts.UpdateLRBatch]. *)
Definition w2v_put_UpdateLRBatch (v : Z) (o : w2v_opts) : w2v_opts := W2vOpts (w2v_BatchSize o) (w2v_Dim o) (w2v_DocInMemory o) (w2v_Goroutines o) (w2v_Initlr o) (w2v_Iter o) (w2v_LogBatch o) (w2v_MaxCount o) (w2v_MaxDepth o) (w2v_MinCount o) (w2v_MinLR o) (w2v_ModelType o) (w2v_NegativeSampleSize o) (w2v_OptimizerType o) (w2v_SubsampleThreshold o) (w2v_ToLower o) v (w2v_Verbose o) (w2v_Window o).
(** word2vec/options.go:124: assigning [opts.Verbose]. *)
Definition w2v_put_Verbose (v : bool) (o : w2v_opts) : w2v_opts := W2vOpts (w2v_BatchSize o) (w2v_Dim o) (w2v_DocInMemory o) (w2v_Goroutines o) (w2v_Initlr o) (w2v_Iter o) (w2v_LogBatch o) (w2v_MaxCount o) (w2v_MaxDepth o) (w2v_MinCount o) (w2v_MinLR o) (w2v_ModelType o) (w2v_NegativeSampleSize o) (w2v_OptimizerType o) (w2v_SubsampleThreshold o) (w2v_ToLower o) (w2v_UpdateLRBatch o) v (w2v_Window o).
(** word2vec/options.go:125: assigning [opts.Window]. *)
Definition w2v_put_Window (v : Z) (o : w2v_opts) : w2v_opts := W2vOpts (w2v_BatchSize o) (w2v_Dim o) (w2v_DocInMemory o) (w2v_Goroutines o) (w2v_Initlr o) (w2v_Iter o) (w2v_LogBatch o) (w2v_MaxCount o) (w2v_MaxDepth o) (w2v_MinCount o) (w2v_MinLR o) (w2v_ModelType o) (w2v_NegativeSampleSize o) (w2v_OptimizerType o) (w2v_SubsampleThreshold o) (w2v_ToLower o) (w2v_UpdateLRBatch o) (w2v_Verbose o) v.
(** word2vec/options.go:106-126, [LoadForCmd]. *)
Definition w2v_load_for_cmd (numcpu : Z) : list (registration (train_vars w2v_opts)) :=
  [ int_var pint (in_opts w2v_put_BatchSize) "batch" None 10000;
    int_var pint (in_opts w2v_put_Dim) "dim" (Some x64) 10;
    int_var pint (in_opts w2v_put_Goroutines) "goroutines" None numcpu;
    bool_var (in_opts w2v_put_DocInMemory) "in-memory" None false;
    float_var pfloat (in_opts w2v_put_Initlr) "initlr" None (f_dec 25 3);
    int_var pint (in_opts w2v_put_Iter) "iter" None 15;
    int_var pint (in_opts w2v_put_LogBatch) "log-batch" None 100000;
    int_var pint (in_opts w2v_put_MaxCount) "max-count" None (-1);
    int_var pint (in_opts w2v_put_MaxDepth) "max-depth" None 100;
    int_var pint (in_opts w2v_put_MinCount) "min-count" None 5;
    float_var pfloat (in_opts w2v_put_MinLR) "min-lr" None (fmul (f_dec 25 3) (f_dec 1 4));
    string_var (in_opts w2v_put_ModelType) "model" None (bs "cbow");
    int_var pint (in_opts w2v_put_NegativeSampleSize) "sample" None 5;
    string_var (in_opts w2v_put_OptimizerType) "optimizer" None (bs "ns");
    float_var pfloat (in_opts w2v_put_SubsampleThreshold) "threshold" None (f_dec 1 3);
    bool_var (in_opts w2v_put_ToLower) "to-lower" None false;
    int_var pint (in_opts w2v_put_UpdateLRBatch) "update-lr-batch" None 100000;
    bool_var (in_opts w2v_put_Verbose) "verbose" None false;
    int_var pint (in_opts w2v_put_Window) "window" (Some x77) 5 ].
(** cmd/model/word2vec/word2vec.go:37-53, [New], then the arguments. *)
Definition w2v_cmd_vars (numcpu : Z) (args : list gostring) : outcome (train_vars w2v_opts * list gostring) :=
  parse_cmd (common_flags ++ w2v_load_for_cmd numcpu ++ help_flag) (TrainVars [] [] false "" w2v_zero false) args.

(** glove: assigning one field, and the zero value of Options. glove.go:38. *)
Definition glv_zero : glv_opts := GlvOpts fzero 0 ""%string 0 false 0 fzero 0 0 0 0 ""%string fzero false false 0 0.
(** glove/options.go:94: assigning [opts.Alpha]. *)
Definition glv_put_Alpha (v : f64) (o : glv_opts) : glv_opts := GlvOpts v (glv_BatchSize o) (glv_CountType o) (glv_Dim o) (glv_DocInMemory o) (glv_Goroutines o) (glv_Initlr o) (glv_Iter o) (glv_LogBatch o) (glv_MaxCount o) (glv_MinCount o) (glv_SolverType o) (glv_SubsampleThreshold o) (glv_ToLower o) (glv_Verbose o) (glv_Window o) (glv_Xmax o).
(** glove/options.go:95: assigning [opts.BatchSize]. *)
Definition glv_put_BatchSize (v : Z) (o : glv_opts) : glv_opts := GlvOpts (glv_Alpha o) v (glv_CountType o) (glv_Dim o) (glv_DocInMemory o) (glv_Goroutines o) (glv_Initlr o) (glv_Iter o) (glv_LogBatch o) (glv_MaxCount o) (glv_MinCount o) (glv_SolverType o) (glv_SubsampleThreshold o) (glv_ToLower o) (glv_Verbose o) (glv_Window o) (glv_Xmax o).
(** glove/options.go:96: assigning [opts.CountType]. *)
Definition glv_put_CountType (v : gostring) (o : glv_opts) : glv_opts := GlvOpts (glv_Alpha o) (glv_BatchSize o) (string_of_list_byte v) (glv_Dim o) (glv_DocInMemory o) (glv_Goroutines o) (glv_Initlr o) (glv_Iter o) (glv_LogBatch o) (glv_MaxCount o) (glv_MinCount o) (glv_SolverType o) (glv_SubsampleThreshold o) (glv_ToLower o) (glv_Verbose o) (glv_Window o) (glv_Xmax o).
(** glove/options.go:97: assigning [opts.Dim]. *)
Definition glv_put_Dim (v : Z) (o : glv_opts) : glv_opts := GlvOpts (glv_Alpha o) (glv_BatchSize o) (glv_CountType o) v (glv_DocInMemory o) (glv_Goroutines o) (glv_Initlr o) (glv_Iter o) (glv_LogBatch o) (glv_MaxCount o) (glv_MinCount o) (glv_SolverType o) (glv_SubsampleThreshold o) (glv_ToLower o) (glv_Verbose o) (glv_Window o) (glv_Xmax o).
(** glove/options.go:99: assigning [opts.DocInMemory]. *)
Definition glv_put_DocInMemory (v : bool) (o : glv_opts) : glv_opts := GlvOpts (glv_Alpha o) (glv_BatchSize o) (glv_CountType o) (glv_Dim o) v (glv_Goroutines o) (glv_Initlr o) (glv_Iter o) (glv_LogBatch o) (glv_MaxCount o) (glv_MinCount o) (glv_SolverType o) (glv_SubsampleThreshold o) (glv_ToLower o) (glv_Verbose o) (glv_Window o) (glv_Xmax o).
(** glove/options.go:98: assigning [opts.Goroutines]. *)
Definition glv_put_Goroutines (v : Z) (o : glv_opts) : glv_opts := GlvOpts (glv_Alpha o) (glv_BatchSize o) (glv_CountType o) (glv_Dim o) (glv_DocInMemory o) v (glv_Initlr o) (glv_Iter o) (glv_LogBatch o) (glv_MaxCount o) (glv_MinCount o) (glv_SolverType o) (glv_SubsampleThreshold o) (glv_ToLower o) (glv_Verbose o) (glv_Window o) (glv_Xmax o).
(** glove/options.go:100: assigning [opts.Initlr]. *)
Definition glv_put_Initlr (v : f64) (o : glv_opts) : glv_opts := GlvOpts (glv_Alpha o) (glv_BatchSize o) (glv_CountType o) (glv_Dim o) (glv_DocInMemory o) (glv_Goroutines o) v (glv_Iter o) (glv_LogBatch o) (glv_MaxCount o) (glv_MinCount o) (glv_SolverType o) (glv_SubsampleThreshold o) (glv_ToLower o) (glv_Verbose o) (glv_Window o) (glv_Xmax o).
(** glove/options.go:101: assigning [opts.Iter]. *)
Definition glv_put_Iter (v : Z) (o : glv_opts) : glv_opts := GlvOpts (glv_Alpha o) (glv_BatchSize o) (glv_CountType o) (glv_Dim o) (glv_DocInMemory o) (glv_Goroutines o) (glv_Initlr o) v (glv_LogBatch o) (glv_MaxCount o) (glv_MinCount o) (glv_SolverType o) (glv_SubsampleThreshold o) (glv_ToLower o) (glv_Verbose o) (glv_Window o) (glv_Xmax o).
(** glove/options.go:102: assigning [opts.LogBatch]. *)
Definition glv_put_LogBatch (v : Z) (o : glv_opts) : glv_opts := GlvOpts (glv_Alpha o) (glv_BatchSize o) (glv_CountType o) (glv_Dim o) (glv_DocInMemory o) (glv_Goroutines o) (glv_Initlr o) (glv_Iter o) v (glv_MaxCount o) (glv_MinCount o) (glv_SolverType o) (glv_SubsampleThreshold o) (glv_ToLower o) (glv_Verbose o) (glv_Window o) (glv_Xmax o).
(** glove/options.go:103: assigning [opts.MaxCount]. *)
Definition glv_put_MaxCount (v : Z) (o : glv_opts) : glv_opts := GlvOpts (glv_Alpha o) (glv_BatchSize o) (glv_CountType o) (glv_Dim o) (glv_DocInMemory o) (glv_Goroutines o) (glv_Initlr o) (glv_Iter o) (glv_LogBatch o) v (glv_MinCount o) (glv_SolverType o) (glv_SubsampleThreshold o) (glv_ToLower o) (glv_Verbose o) (glv_Window o) (glv_Xmax o).
(** glove/options.go:104: assigning [opts.MinCount]. *)
Definition glv_put_MinCount (v : Z) (o : glv_opts) : glv_opts := GlvOpts (glv_Alpha o) (glv_BatchSize o) (glv_CountType o) (glv_Dim o) (glv_DocInMemory o) (glv_Goroutines o) (glv_Initlr o) (glv_Iter o) (glv_LogBatch o) (glv_MaxCount o) v (glv_SolverType o) (glv_SubsampleThreshold o) (glv_ToLower o) (glv_Verbose o) (glv_Window o) (glv_Xmax o).
(** glove/options.go:105: assigning [opts.SolverType]. *)
Definition glv_put_SolverType (v : gostring) (o : glv_opts) : glv_opts := GlvOpts (glv_Alpha o) (glv_BatchSize o) (glv_CountType o) (glv_Dim o) (glv_DocInMemory o) (glv_Goroutines o) (glv_Initlr o) (glv_Iter o) (glv_LogBatch o) (glv_MaxCount o) (glv_MinCount o) (string_of_list_byte v) (glv_SubsampleThreshold o) (glv_ToLower o) (glv_Verbose o) (glv_Window o) (glv_Xmax o).
(** glove/options.go:106: assigning [opts.SubsampleThreshold]. *)
Definition glv_put_SubsampleThreshold (v : f64) (o : glv_opts) : glv_opts := GlvOpts (glv_Alpha o) (glv_BatchSize o) (glv_CountType o) (glv_Dim o) (glv_DocInMemory o) (glv_Goroutines o) (glv_Initlr o) (glv_Iter o) (glv_LogBatch o) (glv_MaxCount o) (glv_MinCount o) (glv_SolverType o) v (glv_ToLower o) (glv_Verbose o) (glv_Window o) (glv_Xmax o).
(** glove/options.go:107: assigning [opts.ToLower]. *)
Definition glv_put_ToLower (v : bool) (o : glv_opts) : glv_opts := GlvOpts (glv_Alpha o) (glv_BatchSize o) (glv_CountType o) (glv_Dim o) (glv_DocInMemory o) (glv_Goroutines o) (glv_Initlr o) (glv_Iter o) (glv_LogBatch o) (glv_MaxCount o) (glv_MinCount o) (glv_SolverType o) (glv_SubsampleThreshold o) v (glv_Verbose o) (glv_Window o) (glv_Xmax o).
(** glove/options.go:108: assigning [opts.Verbose]. *)
Definition glv_put_Verbose (v : bool) (o : glv_opts) : glv_opts := GlvOpts (glv_Alpha o) (glv_BatchSize o) (glv_CountType o) (glv_Dim o) (glv_DocInMemory o) (glv_Goroutines o) (glv_Initlr o) (glv_Iter o) (glv_LogBatch o) (glv_MaxCount o) (glv_MinCount o) (glv_SolverType o) (glv_SubsampleThreshold o) (glv_ToLower o) v (glv_Window o) (glv_Xmax o).
(** glove/options.go:109: assigning [opts.Window]. *)
Definition glv_put_Window (v : Z) (o : glv_opts) : glv_opts := GlvOpts (glv_Alpha o) (glv_BatchSize o) (glv_CountType o) (glv_Dim o) (glv_DocInMemory o) (glv_Goroutines o) (glv_Initlr o) (glv_Iter o) (glv_LogBatch o) (glv_MaxCount o) (glv_MinCount o) (glv_SolverType o) (glv_SubsampleThreshold o) (glv_ToLower o) (glv_Verbose o) v (glv_Xmax o).
(** glove/options.go:110: assigning [opts.Xmax]. *)
Definition glv_put_Xmax (v : Z) (o : glv_opts) : glv_opts := GlvOpts (glv_Alpha o) (glv_BatchSize o) (glv_CountType o) (glv_Dim o) (glv_DocInMemory o) (glv_Goroutines o) (glv_Initlr o) (glv_Iter o) (glv_LogBatch o) (glv_MaxCount o) (glv_MinCount o) (glv_SolverType o) (glv_SubsampleThreshold o) (glv_ToLower o) (glv_Verbose o) (glv_Window o) v.
(** glove/options.go:93-111, [LoadForCmd]. *)
Definition glv_load_for_cmd (numcpu : Z) : list (registration (train_vars glv_opts)) :=
  [ float_var pfloat (in_opts glv_put_Alpha) "alpha" None (f_dec 75 2);
    int_var pint (in_opts glv_put_BatchSize) "batch" None 10000;
    string_var (in_opts glv_put_CountType) "cnt" None (bs "inc");
    int_var pint (in_opts glv_put_Dim) "dim" (Some x64) 10;
    int_var pint (in_opts glv_put_Goroutines) "goroutines" None numcpu;
    bool_var (in_opts glv_put_DocInMemory) "in-memory" None false;
    float_var pfloat (in_opts glv_put_Initlr) "initlr" None (f_dec 25 3);
    int_var pint (in_opts glv_put_Iter) "iter" None 15;
    int_var pint (in_opts glv_put_LogBatch) "log-batch" None 100000;
    int_var pint (in_opts glv_put_MaxCount) "max-count" None (-1);
    int_var pint (in_opts glv_put_MinCount) "min-count" None 5;
    string_var (in_opts glv_put_SolverType) "solver" None (bs "sgd");
    float_var pfloat (in_opts glv_put_SubsampleThreshold) "threshold" None (f_dec 1 3);
    bool_var (in_opts glv_put_ToLower) "to-lower" None false;
    bool_var (in_opts glv_put_Verbose) "verbose" None false;
    int_var pint (in_opts glv_put_Window) "window" (Some x77) 5;
    int_var pint (in_opts glv_put_Xmax) "xmax" None 100 ].
(** cmd/model/glove/glove.go:37-53, [New], then the arguments. *)
Definition glv_cmd_vars (numcpu : Z) (args : list gostring) : outcome (train_vars glv_opts * list gostring) :=
  parse_cmd (common_flags ++ glv_load_for_cmd numcpu ++ help_flag) (TrainVars [] [] false "" glv_zero false) args.

(** lexvec: assigning one field, and the zero value of Options. lexvec.go:38. *)
Definition lex_zero : lex_opts := LexOpts 0 0 false 0 fzero 0 0 0 0 fzero 0 ""%string fzero fzero false 0 false 0.
(** lexvec/options.go:98: assigning [opts.BatchSize]. *)
Definition lex_put_BatchSize (v : Z) (o : lex_opts) : lex_opts := LexOpts v (lex_Dim o) (lex_DocInMemory o) (lex_Goroutines o) (lex_Initlr o) (lex_Iter o) (lex_LogBatch o) (lex_MaxCount o) (lex_MinCount o) (lex_MinLR o) (lex_NegativeSampleSize o) (lex_RelationType o) (lex_Smooth o) (lex_SubsampleThreshold o) (lex_ToLower o) (lex_UpdateLRBatch o) (lex_Verbose o) (lex_Window o).
(** lexvec/options.go:99: assigning [opts.Dim]. *)
Definition lex_put_Dim (v : Z) (o : lex_opts) : lex_opts := LexOpts (lex_BatchSize o) v (lex_DocInMemory o) (lex_Goroutines o) (lex_Initlr o) (lex_Iter o) (lex_LogBatch o) (lex_MaxCount o) (lex_MinCount o) (lex_MinLR o) (lex_NegativeSampleSize o) (lex_RelationType o) (lex_Smooth o) (lex_SubsampleThreshold o) (lex_ToLower o) (lex_UpdateLRBatch o) (lex_Verbose o) (lex_Window o).
(** lexvec/options.go:101: assigning [opts.DocInMemory]. *)
Definition lex_put_DocInMemory (v : bool) (o : lex_opts) : lex_opts := LexOpts (lex_BatchSize o) (lex_Dim o) v (lex_Goroutines o) (lex_Initlr o) (lex_Iter o) (lex_LogBatch o) (lex_MaxCount o) (lex_MinCount o) (lex_MinLR o) (lex_NegativeSampleSize o) (lex_RelationType o) (lex_Smooth o) (lex_SubsampleThreshold o) (lex_ToLower o) (lex_UpdateLRBatch o) (lex_Verbose o) (lex_Window o).
(** lexvec/options.go:100: assigning [opts.Goroutines]. *)
Definition lex_put_Goroutines (v : Z) (o : lex_opts) : lex_opts := LexOpts (lex_BatchSize o) (lex_Dim o) (lex_DocInMemory o) v (lex_Initlr o) (lex_Iter o) (lex_LogBatch o) (lex_MaxCount o) (lex_MinCount o) (lex_MinLR o) (lex_NegativeSampleSize o) (lex_RelationType o) (lex_Smooth o) (lex_SubsampleThreshold o) (lex_ToLower o) (lex_UpdateLRBatch o) (lex_Verbose o) (lex_Window o).
(** lexvec/options.go:102: assigning [opts.Initlr]. *)
Definition lex_put_Initlr (v : f64) (o : lex_opts) : lex_opts := LexOpts (lex_BatchSize o) (lex_Dim o) (lex_DocInMemory o) (lex_Goroutines o) v (lex_Iter o) (lex_LogBatch o) (lex_MaxCount o) (lex_MinCount o) (lex_MinLR o) (lex_NegativeSampleSize o) (lex_RelationType o) (lex_Smooth o) (lex_SubsampleThreshold o) (lex_ToLower o) (lex_UpdateLRBatch o) (lex_Verbose o) (lex_Window o).
(** lexvec/options.go:103: assigning [opts.Iter]. *)
Definition lex_put_Iter (v : Z) (o : lex_opts) : lex_opts := LexOpts (lex_BatchSize o) (lex_Dim o) (lex_DocInMemory o) (lex_Goroutines o) (lex_Initlr o) v (lex_LogBatch o) (lex_MaxCount o) (lex_MinCount o) (lex_MinLR o) (lex_NegativeSampleSize o) (lex_RelationType o) (lex_Smooth o) (lex_SubsampleThreshold o) (lex_ToLower o) (lex_UpdateLRBatch o) (lex_Verbose o) (lex_Window o).
(** lexvec/options.go:104: assigning [opts.LogBatch]. *)
Definition lex_put_LogBatch (v : Z) (o : lex_opts) : lex_opts := LexOpts (lex_BatchSize o) (lex_Dim o) (lex_DocInMemory o) (lex_Goroutines o) (lex_Initlr o) (lex_Iter o) v (lex_MaxCount o) (lex_MinCount o) (lex_MinLR o) (lex_NegativeSampleSize o) (lex_RelationType o) (lex_Smooth o) (lex_SubsampleThreshold o) (lex_ToLower o) (lex_UpdateLRBatch o) (lex_Verbose o) (lex_Window o).
(** lexvec/options.go:105: assigning [opts.MaxCount]. *)
Definition lex_put_MaxCount (v : Z) (o : lex_opts) : lex_opts := LexOpts (lex_BatchSize o) (lex_Dim o) (lex_DocInMemory o) (lex_Goroutines o) (lex_Initlr o) (lex_Iter o) (lex_LogBatch o) v (lex_MinCount o) (lex_MinLR o) (lex_NegativeSampleSize o) (lex_RelationType o) (lex_Smooth o) (lex_SubsampleThreshold o) (lex_ToLower o) (lex_UpdateLRBatch o) (lex_Verbose o) (lex_Window o).
(** lexvec/options.go:106: assigning [opts.MinCount]. *)
Definition lex_put_MinCount (v : Z) (o : lex_opts) : lex_opts := LexOpts (lex_BatchSize o) (lex_Dim o) (lex_DocInMemory o) (lex_Goroutines o) (lex_Initlr o) (lex_Iter o) (lex_LogBatch o) (lex_MaxCount o) v (lex_MinLR o) (lex_NegativeSampleSize o) (lex_RelationType o) (lex_Smooth o) (lex_SubsampleThreshold o) (lex_ToLower o) (lex_UpdateLRBatch o) (lex_Verbose o) (lex_Window o).
(** lexvec/options.go:107: assigning [opts.MinLR]. *)
Definition lex_put_MinLR (v : f64) (o : lex_opts) : lex_opts := LexOpts (lex_BatchSize o) (lex_Dim o) (lex_DocInMemory o) (lex_Goroutines o) (lex_Initlr o) (lex_Iter o) (lex_LogBatch o) (lex_MaxCount o) (lex_MinCount o) v (lex_NegativeSampleSize o) (lex_RelationType o) (lex_Smooth o) (lex_SubsampleThreshold o) (lex_ToLower o) (lex_UpdateLRBatch o) (lex_Verbose o) (lex_Window o).
(** lexvec/options.go:108: assigning [opts.NegativeSampleSize]. *)
Definition lex_put_NegativeSampleSize (v : Z) (o : lex_opts) : lex_opts := LexOpts (lex_BatchSize o) (lex_Dim o) (lex_DocInMemory o) (lex_Goroutines o) (lex_Initlr o) (lex_Iter o) (lex_LogBatch o) (lex_MaxCount o) (lex_MinCount o) (lex_MinLR o) v (lex_RelationType o) (lex_Smooth o) (lex_SubsampleThreshold o) (lex_ToLower o) (lex_UpdateLRBatch o) (lex_Verbose o) (lex_Window o).
(** lexvec/options.go:109: assigning [opts.RelationType]. *)
Definition lex_put_RelationType (v : gostring) (o : lex_opts) : lex_opts := LexOpts (lex_BatchSize o) (lex_Dim o) (lex_DocInMemory o) (lex_Goroutines o) (lex_Initlr o) (lex_Iter o) (lex_LogBatch o) (lex_MaxCount o) (lex_MinCount o) (lex_MinLR o) (lex_NegativeSampleSize o) (string_of_list_byte v) (lex_Smooth o) (lex_SubsampleThreshold o) (lex_ToLower o) (lex_UpdateLRBatch o) (lex_Verbose o) (lex_Window o).
(** lexvec/options.go:110: assigning [opts.Smooth]. *)
Definition lex_put_Smooth (v : f64) (o : lex_opts) : lex_opts := LexOpts (lex_BatchSize o) (lex_Dim o) (lex_DocInMemory o) (lex_Goroutines o) (lex_Initlr o) (lex_Iter o) (lex_LogBatch o) (lex_MaxCount o) (lex_MinCount o) (lex_MinLR o) (lex_NegativeSampleSize o) (lex_RelationType o) v (lex_SubsampleThreshold o) (lex_ToLower o) (lex_UpdateLRBatch o) (lex_Verbose o) (lex_Window o).
(** lexvec/options.go:111: assigning [opts.SubsampleThreshold]. *)
Definition lex_put_SubsampleThreshold (v : f64) (o : lex_opts) : lex_opts := LexOpts (lex_BatchSize o) (lex_Dim o) (lex_DocInMemory o) (lex_Goroutines o) (lex_Initlr o) (lex_Iter o) (lex_LogBatch o) (lex_MaxCount o) (lex_MinCount o) (lex_MinLR o) (lex_NegativeSampleSize o) (lex_RelationType o) (lex_Smooth o) v (lex_ToLower o) (lex_UpdateLRBatch o) (lex_Verbose o) (lex_Window o).
(** lexvec/options.go:112: assigning [opts.ToLower]. *)
Definition lex_put_ToLower (v : bool) (o : lex_opts) : lex_opts := LexOpts (lex_BatchSize o) (lex_Dim o) (lex_DocInMemory o) (lex_Goroutines o) (lex_Initlr o) (lex_Iter o) (lex_LogBatch o) (lex_MaxCount o) (lex_MinCount o) (lex_MinLR o) (lex_NegativeSampleSize o) (lex_RelationType o) (lex_Smooth o) (lex_SubsampleThreshold o) v (lex_UpdateLRBatch o) (lex_Verbose o) (lex_Window o).
(** lexvec/options.go:113: assigning [opts.UpdateLRBatch]. *)
Definition lex_put_UpdateLRBatch (v : Z) (o : lex_opts) : lex_opts := LexOpts (lex_BatchSize o) (lex_Dim o) (lex_DocInMemory o) (lex_Goroutines o) (lex_Initlr o) (lex_Iter o) (lex_LogBatch o) (lex_MaxCount o) (lex_MinCount o) (lex_MinLR o) (lex_NegativeSampleSize o) (lex_RelationType o) (lex_Smooth o) (lex_SubsampleThreshold o) (lex_ToLower o) v (lex_Verbose o) (lex_Window o).
(** lexvec/options.go:114: assigning [opts.Verbose]. *)
Definition lex_put_Verbose (v : bool) (o : lex_opts) : lex_opts := LexOpts (lex_BatchSize o) (lex_Dim o) (lex_DocInMemory o) (lex_Goroutines o) (lex_Initlr o) (lex_Iter o) (lex_LogBatch o) (lex_MaxCount o) (lex_MinCount o) (lex_MinLR o) (lex_NegativeSampleSize o) (lex_RelationType o) (lex_Smooth o) (lex_SubsampleThreshold o) (lex_ToLower o) (lex_UpdateLRBatch o) v (lex_Window o).
(** lexvec/options.go:115: assigning [opts.Window]. *)
Definition lex_put_Window (v : Z) (o : lex_opts) : lex_opts := LexOpts (lex_BatchSize o) (lex_Dim o) (lex_DocInMemory o) (lex_Goroutines o) (lex_Initlr o) (lex_Iter o) (lex_LogBatch o) (lex_MaxCount o) (lex_MinCount o) (lex_MinLR o) (lex_NegativeSampleSize o) (lex_RelationType o) (lex_Smooth o) (lex_SubsampleThreshold o) (lex_ToLower o) (lex_UpdateLRBatch o) (lex_Verbose o) v.
(** lexvec/options.go:97-117, [LoadForCmd]. *)
Definition lex_load_for_cmd (numcpu : Z) : list (registration (train_vars lex_opts)) :=
  [ int_var pint (in_opts lex_put_BatchSize) "batch" None 10000;
    int_var pint (in_opts lex_put_Dim) "dim" (Some x64) 10;
    int_var pint (in_opts lex_put_Goroutines) "goroutines" None numcpu;
    bool_var (in_opts lex_put_DocInMemory) "in-memory" None false;
    float_var pfloat (in_opts lex_put_Initlr) "initlr" None (f_dec 25 3);
    int_var pint (in_opts lex_put_Iter) "iter" None 15;
    int_var pint (in_opts lex_put_LogBatch) "log-batch" None 100000;
    int_var pint (in_opts lex_put_MaxCount) "max-count" None (-1);
    int_var pint (in_opts lex_put_MinCount) "min-count" None 5;
    float_var pfloat (in_opts lex_put_MinLR) "min-lr" None (fmul (f_dec 25 3) (f_dec 1 4));
    int_var pint (in_opts lex_put_NegativeSampleSize) "sample" None 5;
    string_var (in_opts lex_put_RelationType) "rel" None (bs "ppmi");
    float_var pfloat (in_opts lex_put_Smooth) "smooth" None (f_dec 75 2);
    float_var pfloat (in_opts lex_put_SubsampleThreshold) "threshold" None (f_dec 1 3);
    bool_var (in_opts lex_put_ToLower) "to-lower" None false;
    int_var pint (in_opts lex_put_UpdateLRBatch) "update-lr-batch" None 100000;
    bool_var (in_opts lex_put_Verbose) "verbose" None false;
    int_var pint (in_opts lex_put_Window) "window" (Some x77) 5 ].
(** cmd/model/lexvec/lexvec.go:37-53, [New], then the arguments. *)
Definition lex_cmd_vars (numcpu : Z) (args : list gostring) : outcome (train_vars lex_opts * list gostring) :=
  parse_cmd (common_flags ++ lex_load_for_cmd numcpu ++ help_flag) (TrainVars [] [] false "" lex_zero false) args.

(** cmd/query/query.go:28-31, cmd/query/console/console.go:29-32. *)
Record query_vars := QueryVars { qv_input : gostring; qv_rank : Z; qv_help : bool }.
(** Assigning [inputFile], query.go:29. *)
Definition qput_input (v : gostring) (s : query_vars) := QueryVars v (qv_rank s) (qv_help s).
(** Assigning [rank], query.go:30. *)
Definition qput_rank (v : Z) (s : query_vars) := QueryVars (qv_input s) v (qv_help s).
(** cobra sets its own variable; see query.go:33-45. *)
Definition qput_help (v : bool) (s : query_vars) := QueryVars (qv_input s) (qv_rank s) v.
(** cmd/query/cmdutil/cmdutil.go:21-32, query.go:42-43, console.go:45-46. *)
Definition query_flags : list (registration query_vars) :=
  [ string_var qput_input "input" (Some x69) (bs "example/word_vectors.txt");
    int_var pint qput_rank "rank" (Some x72) 10;
    bool_var qput_help "help" (Some x68) false ].
(** query.go:33-45, console.go:34-48. *)
Definition query_cmd_vars (args : list gostring) : outcome (query_vars * list gostring) :=
  parse_cmd query_flags (QueryVars [] 0 false) args.
End Commands.
Arguments TrainVars {T}. Arguments tv_input {T}. Arguments tv_output {T}. Arguments tv_prof {T}. Arguments tv_vec_type {T}.
Arguments tv_opts {T}. Arguments tv_help {T}.
