(** * Specification of the command line tool *)
Require Import Verif.PyBase Verif.JsonData Verif.Parser Verif.IOInfo Verif.IOGen Verif.Access Verif.ParaTypes Verif.ParaGen
  Verif.SpecIO Verif.SpecPara Verif.Cli.

(** [beside script f p]: [p] is the path of [f] relative to the directory of the script. *)
Inductive beside : string -> string -> string -> Prop :=
| beside_dir d base f : has_slash base = false -> beside (d +++ "/" +++ base) f (d +++ "/" +++ f)
| beside_here base f : has_slash base = false -> beside base f f.

(** Some operand or option argument is an output other than the streaming output. *)
Definition other_output (c : invocation_io) : Prop :=
  (exists x, In x (io_operand_list c) /\ has_access x OTHER_OUTPUT) \/
  (exists n x, In (OptionIO n x) (io_flag_option_list c) /\ has_access x OTHER_OUTPUT).

(** What the second section of the report says. *)
Inductive io_reported (dir : data_dir) (inv : invocation) : io_section -> Prop :=
| ir_none : (forall c, ~ with_io dir inv c) -> io_reported dir inv SideEffectful
| ir_other c : with_io dir inv c -> other_output c -> io_reported dir inv OtherOutputs
| ir_applied c : with_io dir inv c -> ~ other_output c -> io_reported dir inv (Applied c).

(** What the third section says: the information of the table, nothing if there is none. *)
Definition para_reported (dir : data_dir) (inv : invocation) (i : para_info) : Prop :=
  exists a, annotated dir inv a /\ round_robin_compatible_with_cat i = false /\
    (parallelizer_list i, is_commutative i) = match a with None => ([], false) | Some x => x end.

(** The report on a command. *)
Definition reports (dir : data_dir) (cmd : string) (r : report) : Prop :=
  r_command r = cmd /\ parse dir cmd = Ok (r_invocation r) /\
  io_reported dir (r_invocation r) (r_io r) /\ para_reported dir (r_invocation r) (r_para r).

(** What the user is told when the target cannot be read, annotation_cli.py:41 *)
Definition told : string := "There exists a file on the provided path so the result will be output (only). ".
(** What is printed before the command is looked at *)
Inductive warned (script : string) (w : world) : option string -> list string -> Prop :=
| warn_print : warned script w None []
| warn_unreadable f p : beside script f p -> (forall b s, files w p <> File true b s) -> warned script w (Some f) [told]
| warn_readable f p b s : beside script f p -> files w p = File true b s -> warned script w (Some f) [].

(** [published render script target w r w' o]: from [w], the report [r] is made public in [w'], with outcome [o]. *)
Inductive published (render : report -> string) (script : string) (w : world) (r : report)
  : option string -> world -> result unit -> Prop :=
| pub_print : published render script w r None (mkWorld (files w) (printed w ++ [render r])) (Ok tt)
| pub_unreadable f p : beside script f p -> (forall b s, files w p <> File true b s) ->
    published render script w r (Some f) (mkWorld (files w) (printed w ++ [told; render r])) (Ok tt)
| pub_saved f p old fs : beside script f p -> files w p = File true true old ->
    fs p = File true true (render r) -> (forall q, q <> p -> fs q = files w q) ->
    published render script w r (Some f) (mkWorld fs (printed w)) (Ok tt)
| pub_readonly f p old : beside script f p -> files w p = File true false old ->
    published render script w r (Some f) w (Raise IOError_).
