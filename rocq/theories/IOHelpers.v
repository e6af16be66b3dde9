(** * Model of the helpers that generators of input/output information are written with
    (annotation_generation/annotation_generators/InputOutputInfoGenerator_Interface.py) *)
Require Import Verif.PyBase Verif.JsonData Verif.Parser Verif.Access Verif.IOInfo Verif.IOGen.

(** The calls a [generate_info] method may make: the library functions of
    InputOutputInfoGenerator_Interface.py:88-150 *)
Inductive io_helper : Type :=
| Stdin (value : bool) | Stdout (value : bool) | NoOperandsStdin
| AllStreamIn | AllStreamOut | AllOtherIn | AllOtherOut
| ButLastStreamIn | ButLastOtherIn | ButFirstStreamIn | ButFirstStreamOut | ButFirstOtherIn
| LastStreamOut | LastOtherOut | AllConfigString | FirstConfigString | FirstConfigFile | AllArgString.
Definition call_io (inv : invocation) (k : io_helper) : io_info -> result io_info :=
  match k with
  | Stdin v => fun i => Ok (set_implicit_use_of_stdin v i) (* :92-93 *)
  | Stdout v => fun i => Ok (set_implicit_use_of_stdout v i) (* :95-96 *)
  | NoOperandsStdin => fun i => Ok (if_no_operands_given_stdin_implicitly_used inv i) (* :98-100 *)
  | AllStreamIn => fun i => Ok (all_operands_are_streaming_inputs i) (* :106-107 *)
  | AllStreamOut => fun i => Ok (all_operands_are_streaming_outputs i) (* :109-110 *)
  | AllOtherIn => fun i => Ok (all_operands_are_other_inputs i) (* :112-113 *)
  | AllOtherOut => fun i => Ok (all_operands_are_other_outputs i) (* :115-116 *)
  | ButLastStreamIn => fun i => Ok (all_but_last_operand_is_streaming_input i) (* :118-119 *)
  | ButLastOtherIn => all_but_last_operand_is_other_input (* :121-122 *)
  | ButFirstStreamIn => fun i => Ok (all_but_first_operand_is_streaming_input i) (* :124-125 *)
  | ButFirstStreamOut => all_but_first_operand_is_streaming_output (* :127-128 *)
  | ButFirstOtherIn => all_but_first_operand_is_other_input (* :130-131 *)
  | LastStreamOut => only_last_operand_is_stream_output (* :133-134 *)
  | LastOtherOut => only_last_operand_is_other_output (* :136-137 *)
  | AllConfigString => fun i => Ok (set_all_operands_as_config_arg_type_string i) (* :139-140 *)
  | FirstConfigString => set_first_operand_as_config_arg_type_string (* :142-143 *)
  | FirstConfigFile => set_first_operand_as_config_arg_type_filename_or_std_descriptor (* :145-146 *)
  | AllArgString => fun i => Ok (set_all_operands_as_arg_string i) (* :149-150 *)
  end.
(** A method that makes these calls, one after the other *)
Fixpoint call_ios (inv : invocation) (ks : list io_helper) (i : io_info) : result io_info :=
  match ks with
  | [] => Ok i
  | k :: ks' => let! i := call_io inv k i in call_ios inv ks' i
  end.
