(** * Model of annotation_generation/datatypes/InputOutputInfo.py,
    datatypes/BasicDatatypesWithIO.py and datatypes/CommandInvocationWithIO.py *)
Require Import Verif.PyBase Verif.Parser Verif.Access.

(** datatypes/BasicDatatypes.py:33-36 *)
Inductive std : Type := STDIN | STDOUT | STDERR.

(** [FileNameOrStdDescriptor], BasicDatatypes.py:23-31, 38-48 *)
Inductive file_or_std : Type :=
| FileName (name : string)
| StdDescriptor (d : std).

(** [FileNameOrStdDescriptorWithIOInfo], BasicDatatypesWithIO.py:23-43 *)
Record resource : Type := mkRes { res_el : file_or_std; res_access : access }.

(** An operand or option argument after applying IO information:
    [Union[ArgStringType, FileNameOrStdDescriptorWithIOInfo]] *)
Inductive io_arg : Type :=
| ArgString (s : string)
| Res (r : resource).

(** A typer: [(WhichClassForArg.FILESTD, access)], [(ARGSTRING, None)] or
    [(PLAINSTRING, None)]; BasicDatatypes.py:124-127. *)
Inductive typer : Type :=
| FILESTD (a : access)
| ARGSTRING
| PLAINSTRING.

(** InputOutputInfo.py:16-33 *)
Record io_info : Type := mkIO
  { flagoption_list_typer : list typer;
    operand_list_typer : list typer;
    implicit_input : option resource;
    implicit_output : option resource }.

(** InputOutputInfo.py:18-33: all operands are streaming inputs by default. *)
Definition new_io_info (fot : list typer) (number_of_operands : nat) : io_info :=
  mkIO fot (repeat (FILESTD STREAM_INPUT) number_of_operands) None None.

Definition with_operand_typer (i : io_info) (l : list typer) : io_info :=
  mkIO (flagoption_list_typer i) l (implicit_input i) (implicit_output i).

(** InputOutputInfo.py:44-52 *)
Definition set_implicit_use_of_stdin (value : bool) (i : io_info) : io_info :=
  if value then
    mkIO (flagoption_list_typer i) (operand_list_typer i)
         (Some (mkRes (StdDescriptor STDIN) STREAM_INPUT)) (implicit_output i)
  else i.
(** InputOutputInfo.py:54-62 *)
Definition set_implicit_use_of_stdout (value : bool) (i : io_info) : io_info :=
  if value then
    mkIO (flagoption_list_typer i) (operand_list_typer i)
         (implicit_input i) (Some (mkRes (StdDescriptor STDOUT) STREAM_OUTPUT))
  else i.

(** [[t] * len(self.operand_list_typer)] *)
Definition set_all (t : typer) (i : io_info) : io_info :=
  with_operand_typer i (repeat t (length (operand_list_typer i))).
(** [self.operand_list_typer[0] = t] *)
Definition set_first (t : typer) (i : io_info) : result io_info :=
  match operand_list_typer i with
  | [] => Raise IndexError
  | _ :: l => Ok (with_operand_typer i (t :: l))
  end.
(** [self.operand_list_typer[-1] = t] *)
Definition set_last (t : typer) (i : io_info) : result io_info :=
  match operand_list_typer i with
  | [] => Raise IndexError
  | l => Ok (with_operand_typer i (removelast l ++ [t]))
  end.
(** [self.operand_list_typer[0]] *)
Definition get_first (i : io_info) : result typer :=
  match operand_list_typer i with [] => Raise IndexError | t :: _ => Ok t end.
(** [self.operand_list_typer[-1]] *)
Definition get_last (i : io_info) : result typer :=
  match operand_list_typer i with [] => Raise IndexError | t :: l => Ok (last l t) end.

(** InputOutputInfo.py:64-65 *)
Definition all_operands_are_streaming_inputs (i : io_info) : io_info := i.
(** InputOutputInfo.py:67-69 *)
Definition all_operands_are_streaming_outputs : io_info -> io_info := set_all (FILESTD STREAM_OUTPUT).
(** InputOutputInfo.py:71-73 *)
Definition all_operands_are_other_inputs : io_info -> io_info := set_all (FILESTD OTHER_INPUT).
(** InputOutputInfo.py:75-77 *)
Definition all_operands_are_other_outputs : io_info -> io_info := set_all (FILESTD OTHER_OUTPUT).
(** InputOutputInfo.py:79-80 *)
Definition all_but_last_operand_is_streaming_input (i : io_info) : io_info := i.
(** InputOutputInfo.py:82-85 *)
Definition all_but_last_operand_is_other_input (i : io_info) : result io_info :=
  let! t := get_last i in set_last t (all_operands_are_other_inputs i).
(** InputOutputInfo.py:87-88 *)
Definition all_but_first_operand_is_streaming_input (i : io_info) : io_info := i.
(** InputOutputInfo.py:90-93 *)
Definition all_but_first_operand_is_streaming_output (i : io_info) : result io_info :=
  let! t := get_first i in set_first t (all_operands_are_streaming_outputs i).
(** InputOutputInfo.py:95-99 *)
Definition all_but_first_operand_is_other_input (i : io_info) : result io_info :=
  let! t := get_first i in set_first t (set_all (FILESTD OTHER_INPUT) i).
(** InputOutputInfo.py:101-102 *)
Definition only_last_operand_is_stream_output : io_info -> result io_info := set_last (FILESTD STREAM_OUTPUT).
(** InputOutputInfo.py:104-105 *)
Definition only_last_operand_is_other_output : io_info -> result io_info := set_last (FILESTD OTHER_OUTPUT).
(** InputOutputInfo.py:107-109 *)
Definition set_all_operands_as_config_arg_type_string : io_info -> io_info := set_all ARGSTRING.
(** InputOutputInfo.py:111-112 *)
Definition set_first_operand_as_config_arg_type_string : io_info -> result io_info := set_first ARGSTRING.
(** InputOutputInfo.py:114-115 *)
Definition set_first_operand_as_config_arg_type_filename_or_std_descriptor : io_info -> result io_info :=
  set_first (FILESTD CONFIG_INPUT).
(** InputOutputInfo.py:118-120 *)
Definition set_all_operands_as_arg_string : io_info -> io_info := set_all ARGSTRING.

(** util.py:20-24 *)
Definition compute_actual_el_for_input (s : string) : file_or_std :=
  if String.eqb s "-" then StdDescriptor STDIN else FileName s.
(** util.py:27-31 *)
Definition compute_actual_el_for_output (s : string) : file_or_std :=
  if String.eqb s "-" then StdDescriptor STDOUT else FileName s.

(** InputOutputInfo.py:144-164 *)
Definition apply_typer_to_arg (arg : string) (t : typer) : result io_arg :=
  match t with
  | FILESTD a =>
      if is_any_input a then Ok (Res (mkRes (compute_actual_el_for_input arg) a))
      else if is_any_output a then Ok (Res (mkRes (compute_actual_el_for_output arg) a))
      else Raise GenericException
  | ARGSTRING => Ok (ArgString arg)
  | PLAINSTRING => Raise GenericException
  end.

(** [Union[Flag, OptionWithIO]], BasicDatatypesWithIO.py:84-97 *)
Inductive flag_option_io : Type :=
| FlagIO (name : string)
| OptionIO (name : string) (arg : io_arg).

(** InputOutputInfo.py:166-180 *)
Definition apply_typer_to_flagoption (fo : flag_option) (t : typer) : result flag_option_io :=
  match fo with
  | Flag n => Ok (FlagIO n)
  | Option_ n arg =>
      let! _ := assert_ (match t with PLAINSTRING => false | _ => true end) in
      let! a := apply_typer_to_arg arg t in
      Ok (OptionIO n a)
  end.

(** CommandInvocationWithIO.py:10-21 *)
Record invocation_io : Type := mkInvIO
  { io_cmd_name : string;
    io_flag_option_list : list flag_option_io;
    io_operand_list : list io_arg;
    io_implicit_input : option resource;
    io_implicit_output : option resource }.

(** InputOutputInfo.py:124-142; [combine] is Python's [zip] and truncates. *)
Definition apply_io_info (i : io_info) (inv : invocation) : result invocation_io :=
  let! fos := map_result (fun p => apply_typer_to_flagoption (fst p) (snd p))
                (combine (flag_option_list inv) (flagoption_list_typer i)) in
  let! ops := map_result (fun p => apply_typer_to_arg (fst p) (snd p))
                (combine (operand_list inv) (operand_list_typer i)) in
  Ok (mkInvIO (cmd_name inv) fos ops (implicit_input i) (implicit_output i)).

(** The access component of a typer tuple. *)
Definition typer_access (t : typer) : option access :=
  match t with FILESTD a => Some a | _ => None end.
(** InputOutputInfo.py:182-189 *)
Definition has_other_outputs (i : io_info) : bool :=
  existsb (fun t => match typer_access t with
                    | Some a => is_other_output a
                    | None => false
                    end)
          (flagoption_list_typer i ++ operand_list_typer i).

(** CommandInvocationWithIO.py:174-194 *)
Definition get_operands_with_config_input (c : invocation_io) : list io_arg :=
  filter (fun x => match x with ArgString _ => true | Res r => is_config_input (res_access r) end)
         (io_operand_list c).
Definition operands_with (p : access -> bool) (c : invocation_io) : list io_arg :=
  filter (fun x => match x with ArgString _ => false | Res r => p (res_access r) end)
         (io_operand_list c).
Definition get_operands_with_stream_input := operands_with is_stream_input.
Definition get_operands_with_other_input := operands_with is_other_input.
Definition get_operands_with_stream_output := operands_with is_stream_output.
Definition get_operands_with_other_output := operands_with is_other_output.
(** CommandInvocationWithIO.py:196-200 *)
Definition get_options_with_other_output (c : invocation_io) : list flag_option_io :=
  filter (fun x => match x with
                   | OptionIO _ (Res r) => is_other_output (res_access r)
                   | _ => false
                   end) (io_flag_option_list c).
