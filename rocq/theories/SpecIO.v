(** * Specification of input/output information *)
Require Export Verif.SpecLists.
Require Import Verif.PyBase Verif.JsonData Verif.Parser Verif.Access Verif.IOInfo Verif.IOGen Verif.SpecParser.

(** ** What an argument denotes *)
Definition input_access (a : access) : Prop :=
  a = CONFIG_INPUT \/ a = STREAM_INPUT \/ a = CONTAINER_FOR_INPUT \/ a = EXCLUDES_FROM_INPUT \/ a = OTHER_INPUT.
Definition output_access (a : access) : Prop := a = STREAM_OUTPUT \/ a = OTHER_OUTPUT.

Inductive denotes : access -> string -> file_or_std -> Prop :=
| denotes_stdin a : input_access a -> denotes a "-" (StdDescriptor STDIN)
| denotes_stdout a : output_access a -> denotes a "-" (StdDescriptor STDOUT)
| denotes_file a s : s <> "-" -> denotes a s (FileName s).

(** The text [s] read as an argument of a given kind. *)
Definition in_file (a : access) (s : string) : io_arg :=
  Res (mkRes (if String.eqb s "-" then StdDescriptor STDIN else FileName s) a).
Definition out_file (a : access) (s : string) : io_arg :=
  Res (mkRes (if String.eqb s "-" then StdDescriptor STDOUT else FileName s) a).

(** The text an argument was written as. *)
Definition text_of (x : io_arg) : string :=
  match x with
  | ArgString s => s
  | Res r => match res_el r with FileName n => n | StdDescriptor _ => "-" end
  end.

Definition stdin : resource := mkRes (StdDescriptor STDIN) STREAM_INPUT.
Definition stdout : resource := mkRes (StdDescriptor STDOUT) STREAM_OUTPUT.

(** Standard input is streamed exactly if [P]; nothing else is streamed implicitly. *)
Definition stdin_iff (c : invocation_io) (P : Prop) : Prop :=
  (P /\ io_implicit_input c = Some stdin) \/ (~ P /\ io_implicit_input c = None).
Definition stdout_iff (c : invocation_io) (P : Prop) : Prop :=
  (P /\ io_implicit_output c = Some stdout) \/ (~ P /\ io_implicit_output c = None).

(** The invocation has a flag or option with this name. *)
Definition uses (inv : invocation) (n : string) : Prop :=
  exists fo, In fo (flag_option_list inv) /\ fo_name fo = n.
(** The flags and options of the invocation with this name. *)
Definition uses_of (inv : invocation) (n : string) : list flag_option :=
  filter (fun fo => String.eqb (fo_name fo) n) (flag_option_list inv).

(** ** Option arguments as declared in the data *)

(** The access kinds by name. *)
Definition access_named (s : string) (a : access) : Prop :=
  (s = "CONFIG_INPUT" /\ a = CONFIG_INPUT) \/ (s = "STREAM_INPUT" /\ a = STREAM_INPUT) \/
  (s = "CONTAINER_FOR_INPUT" /\ a = CONTAINER_FOR_INPUT) \/
  (s = "EXCLUDES_FROM_INPUT" /\ a = EXCLUDES_FROM_INPUT) \/ (s = "OTHER_INPUT" /\ a = OTHER_INPUT) \/
  (s = "STREAM_OUTPUT" /\ a = STREAM_OUTPUT) \/ (s = "OTHER_OUTPUT" /\ a = OTHER_OUTPUT).

Definition file_type (ty : string) : Prop := ty = "FILE" \/ ty = "DIR" \/ ty = "DIRECTORY".

(** [declares e None]: the argument is a string; [declares e (Some a)]: a file
    accessed as [a]. *)
Inductive declares (e : option_entry) : option access -> Prop :=
| declares_file ty ac rest a :
    oe_arg e = OAList (ty :: ac :: rest) -> file_type ty -> access_named ac a -> declares e (Some a)
| declares_string ty ac rest a :
    oe_arg e = OAList (ty :: ac :: rest) -> ~ file_type ty -> access_named ac a -> declares e None
| declares_plain ty :
    oe_arg e = OAStr ty -> ~ file_type ty -> declares e None.

(** The name an option entry is filed under: its first element. *)
Definition filed_under (e : option_entry) (n : string) : Prop :=
  match oe_names e with m :: _ => n = m | [] => oe_arg e = OAStr n end.

(** The data can be used for classification. *)
Definition classifiable (j : json_data) : Prop :=
  forall e, In e (j_option j) -> (exists n, filed_under e n) /\ exists d, declares e d.

(** The declaration for option [n]: the last entry filed under [n]. *)
Definition declared_as (j : json_data) (n : string) (d : option access) : Prop :=
  exists pre e post, j_option j = pre ++ e :: post /\ filed_under e n /\ declares e d /\
    forall e', In e' post -> ~ filed_under e' n.

Inductive option_arg_io : option access -> string -> io_arg -> Prop :=
| oa_string s : option_arg_io None s (ArgString s)
| oa_file a s el : denotes a s el -> option_arg_io (Some a) s (Res (mkRes el a)).

Inductive fo_classified (j : json_data) : flag_option -> flag_option_io -> Prop :=
| fc_flag n : fo_classified j (Flag n) (FlagIO n)
| fc_option n s d x :
    declared_as j n d -> option_arg_io d s x -> fo_classified j (Option_ n s) (OptionIO n x).

(** [options_classified dir inv fos]: the flags and options of [inv] with their
    arguments classified as the data of the command declares. *)
Definition options_classified (dir : data_dir) (inv : invocation) (fos : list flag_option_io) : Prop :=
  exists j, loads dir (cmd_name inv) j /\ classifiable j /\
    Forall2 (fo_classified j) (flag_option_list inv) fos.

(** ** The invocation with IO information *)
Definition with_io (dir : data_dir) (inv : invocation) (c : invocation_io) : Prop :=
  exists i, get_input_output_info dir inv = Some i /\ apply_io_info i inv = Ok c.

(** [shape dir inv c operands]: [c] is [inv] with flags and options classified as
    declared and the given operands. *)
Definition shape (dir : data_dir) (inv : invocation) (c : invocation_io) (operands : list io_arg) : Prop :=
  io_cmd_name c = cmd_name inv /\
  options_classified dir inv (io_flag_option_list c) /\
  io_operand_list c = operands.

(** The commands that have IO information. *)
Definition io_commands : list string :=
  ["alt_bigrams_aux"; "alt_bigram_aux_reduce"; "awk"; "bigrams_aux"; "cat"; "col"; "comm";
   "custom_sort"; "custom_tr"; "cut"; "diff"; "grep"; "head"; "mkfifo"; "mv"; "rm"; "sed";
   "set_diff"; "seq"; "sort"; "tail"; "tee"; "test_one"; "test_two"; "tr"; "uniq"; "wc"; "xargs"].

(** The per-command rule an invocation has to obey to get IO information. *)
Definition rule (inv : invocation) : Prop :=
  let n := length (operand_list inv) in
  match cmd_name inv with
  | "awk" => uses inv "-f" \/ n >= 1
  | "grep" | "sed" => uses inv "-e" \/ uses inv "-f" \/ n >= 1
  | "comm" => n = 2
  | "set_diff" => n = 1
  | "uniq" => n <= 2
  | "mv" => length (uses_of inv "-t") = 1 \/ (~ uses inv "-t" /\ n >= 1)
  | "wc" => ~ uses inv "--files0-from"
  | _ => True
  end%string.

(** ** Accessors *)
Definition has_access (x : io_arg) (a : access) : Prop :=
  exists el, x = Res (mkRes el a).

(** [x] is the text [s], read as a string or as the resource it denotes. *)
Definition arg_reading (s : string) (x : io_arg) : Prop :=
  x = ArgString s \/ exists a el, x = Res (mkRes el a) /\ denotes a s el.

Inductive fo_reading : flag_option -> flag_option_io -> Prop :=
| fr_flag n : fo_reading (Flag n) (FlagIO n)
| fr_option n s x : arg_reading s x -> fo_reading (Option_ n s) (OptionIO n x).

(** How one flag or option is classified, read off the unique entry that lists it. *)
Inductive as_listed (j : json_data) : flag_option -> flag_option_io -> Prop :=
| al_flag n : as_listed j (Flag n) (FlagIO n)
| al_string n s e :
    In e (j_option j) -> In n (oe_names e) ->
    (forall e', In e' (j_option j) -> In n (oe_names e') -> e' = e) ->
    declares e None -> as_listed j (Option_ n s) (OptionIO n (ArgString s))
| al_file n s e a el :
    In e (j_option j) -> In n (oe_names e) ->
    (forall e', In e' (j_option j) -> In n (oe_names e') -> e' = e) ->
    declares e (Some a) -> denotes a s el -> as_listed j (Option_ n s) (OptionIO n (Res (mkRes el a))).

(** The first operand is a script or pattern unless an option gives it; all others
    are streaming inputs. *)
Definition script_operand (script_option : Prop) (xs : list string) (x : list io_arg) : Prop :=
  (script_option /\ x = map (in_file STREAM_INPUT) xs) \/
  (~ script_option /\ exists o l, xs = o :: l /\ x = ArgString o :: map (in_file STREAM_INPUT) l).

(** ** Setters
    [retyped which t i i']: the operands at the positions [which] get type [t], nothing else
    changes. *)
Definition retyped (which : nat -> Prop) (t : typer) (i i' : io_info) : Prop :=
  flagoption_list_typer i' = flagoption_list_typer i /\
  implicit_input i' = implicit_input i /\ implicit_output i' = implicit_output i /\
  length (operand_list_typer i') = length (operand_list_typer i) /\
  forall k, k < length (operand_list_typer i) ->
    (which k -> nth_error (operand_list_typer i') k = Some t) /\
    (~ which k -> nth_error (operand_list_typer i') k = nth_error (operand_list_typer i) k).
Definition is_first (i : io_info) (k : nat) : Prop := k = 0.
Definition is_last (i : io_info) (k : nat) : Prop := S k = length (operand_list_typer i).
(** [sets r which t i]: the call returns the information with the operands [which] retyped;
    it raises an IndexError exactly if there is no operand. *)
Definition sets (r : result io_info) (which : nat -> Prop) (t : typer) (i : io_info) : Prop :=
  (operand_list_typer i = [] /\ r = Raise IndexError) \/
  (operand_list_typer i <> [] /\ exists i', r = Ok i' /\ retyped which t i i').
