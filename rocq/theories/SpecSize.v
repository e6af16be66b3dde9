(** * xargs with a limit on the length of command lines, and with a slot variable (C60)
    The data list -s as a flag, so its argument is the first operand and the flags end with -s.
    After the GNU manual and xargs.c (read_line, read_string, bc_push_arg): an item that is longer
    than the limit is an error, and nothing is run after it. *)
Require Import Verif.PyBase Verif.SpecSem Verif.SpecSem2 Verif.SpecSem7.

(** The words after the number are the command: options end at the first word that does not
    start with a dash. *)
Definition is_command (ops : list word) : Prop :=
  exists w ops', ops = WText w :: ops' /\ forall s, w <> String "-" s.
Definition too_long_first (o : xargs_world) (B : behaviour) : Prop :=
  forall seed fl limit ops input x e l, known xargs_names fl -> one_kind fl -> given fl ["--help"; "--version"] = false ->
    is_command ops -> read_items o fl input = Some ((x, e) :: l) -> has_char nul input = false ->
    number limit < String.length x ->
    B seed "xargs" (fl ++ [WFlag "-s"]) (WText limit :: ops) [input] = "".

(** ** The slot variable
    The data list --process-slot-var as a flag, too.  xargs sets the variable to the number of the
    slot in which a command runs, which is 0 unless -P is given: the commands run in an
    environment that depends on the name, and nothing else changes. *)
Definition slot_world (env : string -> xargs_world) (B : behaviour) : Prop :=
  forall seed fl name ops input l, known xargs_names fl -> one_kind fl -> is_command ops ->
    read_items (env name) fl input = Some l -> has_char nul input = false ->
    B seed "xargs" (fl ++ [WFlag "--process-slot-var"]) (WText name :: ops) [input] = xargs_prints (env name) fl ops l.
