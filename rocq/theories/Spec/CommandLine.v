(** * Command lines: what the user may write, and what it means

    Nothing here refers to how the arguments are parsed. *)
From Verif.Lib Require Import Go F64.

Inductive kind := Int | Float | Text | Switch.
(** An option: its long name, its one-letter name, the kind of its value. *)
Record opt := Opt { o_name : string; o_short : option byte; o_kind : kind }.

(** The last value given for an option. *)
Fixpoint last_value (name : gostring) (settings : list (gostring * gostring)) : option gostring :=
  match settings with
  | [] => None
  | (n, v) :: rest => match last_value name rest with
                      | Some w => Some w
                      | None => if gseqb n name then Some v else None
                      end
  end.

(** [x] is the value given last for the option, read by [parse], or the default. *)
Definition given {A} (parse : gostring -> option A) (settings : list (gostring * gostring)) (name : string) (default x : A) : Prop :=
  match last_value (bs name) settings with
  | Some v => parse v = Some x
  | None => x = default
  end.

Definition as_text (v : gostring) : option gostring := Some v.
Definition as_string (v : gostring) : option string := Some (string_of_list_byte v).

Section Syntax.
Variable os : list opt.

Definition is_test (s : gostring) : Prop := exists t, s = bs "test." ++ t.
(** [-d=5] and not [-d=]. *)
Definition has_equal (s : gostring) : Prop := exists b t, s = x3d :: b :: t.

(** The letters after a single dash, given the arguments that follow: the settings, and the arguments
    left over. *)
Inductive letters : gostring -> list gostring -> list (gostring * gostring) -> list gostring -> Prop :=
| l_end args : letters [] args [] args
(** arguments of the Go test runner are skipped *)
| l_test s args : is_test s -> letters s args [] args
(** -d=5 *)
| l_equal o c v args : In o os -> o_short o = Some c -> v <> [] -> letters (c :: x3d :: v) args [(bs (o_name o), v)] args
(** -d5 *)
| l_attached o c v args : In o os -> o_short o = Some c -> o_kind o <> Switch -> v <> [] -> ~ has_equal v -> ~ is_test (c :: v) ->
    letters (c :: v) args [(bs (o_name o), v)] args
(** -d 5 *)
| l_next o c v args : In o os -> o_short o = Some c -> o_kind o <> Switch -> letters [c] (v :: args) [(bs (o_name o), v)] args
(** -h, possibly followed by more letters *)
| l_switch o c s args st args' : In o os -> o_short o = Some c -> o_kind o = Switch -> ~ has_equal s -> ~ is_test (c :: s) ->
    letters s args st args' -> letters (c :: s) args ((bs (o_name o), bs "true") :: st) args'.

(** Arguments that are not options: not beginning with a dash, or just a dash. *)
Definition is_word (a : gostring) : Prop := a = bs "-" \/ forall s, a <> x2d :: s.

(** [command_line args settings words]: the arguments set the options [settings], in this order, and
    the other arguments are [words]. *)
Inductive command_line : list gostring -> list (gostring * gostring) -> list gostring -> Prop :=
| cl_end : command_line [] [] []
| cl_stop args : command_line (bs "--" :: args) [] args
| cl_word a args st pos : is_word a -> command_line args st pos -> command_line (a :: args) st (a :: pos)
(** --dim=5 *)
| cl_equal o v args st pos : In o os -> command_line args st pos ->
    command_line ((bs "--" ++ bs (o_name o) ++ bs "=" ++ v) :: args) ((bs (o_name o), v) :: st) pos
(** --dim 5 *)
| cl_next o v args st pos : In o os -> o_kind o <> Switch -> command_line args st pos ->
    command_line ((bs "--" ++ bs (o_name o)) :: v :: args) ((bs (o_name o), v) :: st) pos
(** --verbose *)
| cl_switch o args st pos : In o os -> o_kind o = Switch -> command_line args st pos ->
    command_line ((bs "--" ++ bs (o_name o)) :: args) ((bs (o_name o), bs "true") :: st) pos
(** -d5 etc. *)
| cl_letters s args st1 args' st pos : s <> [] -> (forall t, s <> x2d :: t) -> letters s args st1 args' -> command_line args' st pos ->
    command_line ((x2d :: s) :: args) (st1 ++ st) pos.

(** A value the option accepts. *)
Definition accepts (pint : gostring -> option Z) (pfloat : gostring -> option f64) (pbool : gostring -> option bool) (n v : gostring) : Prop :=
  exists o, In o os /\ bs (o_name o) = n /\
    match o_kind o with Int => pint v <> None | Float => pfloat v <> None | Text => True | Switch => pbool v <> None end.
End Syntax.

(** ** The options of the commands *)

Definition word2vec_options : list opt :=
  [ Opt "input" (Some x69) Text;
    Opt "output" (Some x6f) Text;
    Opt "prof" None Switch;
    Opt "vec-type" None Text;
    Opt "batch" None Int;
    Opt "dim" (Some x64) Int;
    Opt "goroutines" None Int;
    Opt "in-memory" None Switch;
    Opt "initlr" None Float;
    Opt "iter" None Int;
    Opt "log-batch" None Int;
    Opt "max-count" None Int;
    Opt "max-depth" None Int;
    Opt "min-count" None Int;
    Opt "min-lr" None Float;
    Opt "model" None Text;
    Opt "sample" None Int;
    Opt "optimizer" None Text;
    Opt "threshold" None Float;
    Opt "to-lower" None Switch;
    Opt "update-lr-batch" None Int;
    Opt "verbose" None Switch;
    Opt "window" (Some x77) Int;
    Opt "help" (Some x68) Switch ]%string.

Definition glove_options : list opt :=
  [ Opt "input" (Some x69) Text;
    Opt "output" (Some x6f) Text;
    Opt "prof" None Switch;
    Opt "vec-type" None Text;
    Opt "alpha" None Float;
    Opt "batch" None Int;
    Opt "cnt" None Text;
    Opt "dim" (Some x64) Int;
    Opt "goroutines" None Int;
    Opt "in-memory" None Switch;
    Opt "initlr" None Float;
    Opt "iter" None Int;
    Opt "log-batch" None Int;
    Opt "max-count" None Int;
    Opt "min-count" None Int;
    Opt "solver" None Text;
    Opt "threshold" None Float;
    Opt "to-lower" None Switch;
    Opt "verbose" None Switch;
    Opt "window" (Some x77) Int;
    Opt "xmax" None Int;
    Opt "help" (Some x68) Switch ]%string.

Definition lexvec_options : list opt :=
  [ Opt "input" (Some x69) Text;
    Opt "output" (Some x6f) Text;
    Opt "prof" None Switch;
    Opt "vec-type" None Text;
    Opt "batch" None Int;
    Opt "dim" (Some x64) Int;
    Opt "goroutines" None Int;
    Opt "in-memory" None Switch;
    Opt "initlr" None Float;
    Opt "iter" None Int;
    Opt "log-batch" None Int;
    Opt "max-count" None Int;
    Opt "min-count" None Int;
    Opt "min-lr" None Float;
    Opt "sample" None Int;
    Opt "rel" None Text;
    Opt "smooth" None Float;
    Opt "threshold" None Float;
    Opt "to-lower" None Switch;
    Opt "update-lr-batch" None Int;
    Opt "verbose" None Switch;
    Opt "window" (Some x77) Int;
    Opt "help" (Some x68) Switch ]%string.

Definition query_options : list opt :=
  [ Opt "input" (Some x69) Text;
    Opt "rank" (Some x72) Int;
    Opt "help" (Some x68) Switch ]%string.
