(** * Model of accessors and small containers *)
Require Import Verif.PyBase Verif.Access Verif.IOInfo Verif.IOVars Verif.Parser.

(** ** CommandInvocationWithIOVars.py:195-222 *)
(** CommandInvocationWithIOVars.py:196-200 *)
Definition civ_operands_with_config_input (c : civ) : list pyval :=
  filter (fun x => match x with PArg _ => true | PRes r => is_config_input (res_access r) | _ => false end) (v_ops c).
(** CommandInvocationWithIOVars.py:202-216 *)
Definition civ_operands_with (p : access -> bool) (c : civ) : list pyval :=
  filter (fun x => match x with PRes r => p (res_access r) | _ => false end) (v_ops c).
Definition civ_operands_with_stream_input := civ_operands_with is_stream_input.
Definition civ_operands_with_other_input := civ_operands_with is_other_input.
Definition civ_operands_with_stream_output := civ_operands_with is_stream_output.
Definition civ_operands_with_other_output := civ_operands_with is_other_output.
(** CommandInvocationWithIOVars.py:218-222 *)
Definition civ_options_with_other_output (c : civ) : list flag_el :=
  filter (fun x => match x with FOptIO _ (PRes r) => is_other_output (res_access r) | _ => false end) (v_flags c).

(** ** annotation_generation/datatypes/Inputs.py:4-31 *)
Inductive inputs_kind : Type := DEFAULT | STREAMING.
(** [values]: the pair of lists of a streaming input; other values are not read. *)
Record inputs (A : Type) : Type := mkInputs { in_kind : inputs_kind; in_values : list A * list A }.
Arguments mkInputs {A}. Arguments in_kind {A}. Arguments in_values {A}.
Definition is_streaming {A} (i : inputs A) : bool := match in_kind i with STREAMING => true | DEFAULT => false end.
Definition get_config_inputs {A} (i : inputs A) : result (list A) :=
  if is_streaming i then Ok (fst (in_values i)) else Raise AssertionError.
Definition get_streaming_inputs {A} (i : inputs A) : result (list A) :=
  if is_streaming i then Ok (snd (in_values i)) else Raise AssertionError.
Definition get_all_inputs {A} (i : inputs A) : result (list A) :=
  if is_streaming i then Ok (fst (in_values i) ++ snd (in_values i)) else Raise AssertionError.

(** ** annotation_generation/datatypes/CommandProperties.py:6-18 *)
Definition properties (A : Type) : Type := list (string * A).
Definition new_properties {A} (d : option (properties A)) : properties A := match d with None => [] | Some d => d end.
Fixpoint set_property {A} (p : properties A) (name : string) (v : A) : properties A :=
  match p with
  | [] => [(name, v)]
  | (k, w) :: p' => if String.eqb k name then (k, v) :: p' else (k, w) :: set_property p' name v
  end.
Fixpoint get_property_value {A} (p : properties A) (name : string) : option A :=
  match p with [] => None | (k, v) :: p' => if String.eqb k name then Some v else get_property_value p' name end.

(** ** util_flag_option.py:3-9 *)
Definition make_arg_simple (arg : list string) : result flag_option :=
  match arg with
  | [f] => Ok (Flag f)
  | [o; a] => Ok (Option_ o a)
  | _ => Raise GenericException
  end.

(** ** BasicDatatypesWithIO.py:50-76: both branches for known classes assert False *)
Inductive stream_target : Type := TFile (name : string) | TStd (s : std) | TOther.
Definition add_access_to_stream (x : stream_target) : result resource :=
  match x with TFile _ => Raise AssertionError | TStd _ => Raise AssertionError | TOther => Raise GenericException end.
