(** * apply_input_output_info_to_command_invocation with the identity of objects
    IOInfo.v describes the values; here invocations, infos and what they consist of are cells of
    the heap of Heap.v. *)
Require Import Verif.PyBase Verif.Access Verif.IOInfo Verif.Heap.

(** A typer is a tuple of a member of [WhichClassForArg] (BasicDatatypes.py:124-127, here its
    value) and an [AccessKind] or [None].  Tuples cannot be changed in Python; they are cells here
    like other objects. *)
Definition typer_obj (which : string) (access : hval) : obj := OInst "tuple" [("0", HStr which); ("1", access)].

(** InputOutputInfo.py:18-33: the constructor; [[t] * n] is [n] times the same tuple. *)
Definition new_io_info_h (flagoption_list_typer : hval) (number_of_operands : nat) (i o : hval) : hm hval :=
  run! a := new_access STREAM_INPUT in
  run! t := alloc (typer_obj "filestd" a) in
  run! l := alloc (OList (repeat t number_of_operands)) in
  alloc (OInst "InputOutputInfo"
    [("flagoption_list_typer", flagoption_list_typer); ("operand_list_typer", l);
     ("implicit_use_of_streaming_input", i); ("implicit_use_of_streaming_output", o)]).

(** the kind of an access, asked by AccessKind.py:23-41 *)
Definition kind_of_access (x : hval) : hm access :=
  run! k := get_attr x "kind" in
  match k with HAccess a => hret a | _ => hthrow TypeError end.
(** [str(x)] of a string *)
Definition as_str (x : hval) : hm string := match x with HStr s => hret s | _ => hthrow TypeError end.

(** util.py:20-24 *)
Definition compute_actual_el_for_input_h (el : hval) : hm hval :=
  run! s := as_str el in
  if String.eqb s "-" then alloc (OInst "StdDescriptor" [("name", HStd STDIN)])
  else alloc (OInst "FileName" [("name", el)]).
(** util.py:27-31 *)
Definition compute_actual_el_for_output_h (el : hval) : hm hval :=
  run! s := as_str el in
  if String.eqb s "-" then alloc (OInst "StdDescriptor" [("name", HStd STDOUT)])
  else alloc (OInst "FileName" [("name", el)]).
(** BasicDatatypesWithIO.py:23-30 *)
Definition get_from_original_filename_with_ioinfo_h (original access : hval) : hm hval :=
  run! n := get_attr original "name" in
  alloc (OInst "FileNameWithIOInfo" [("name", n); ("access", access)]).
(** BasicDatatypesWithIO.py:33-40 *)
Definition get_from_original_stddescriptor_with_ioinfo_h (original access : hval) : hm hval :=
  run! n := get_attr original "name" in
  alloc (OInst "StdDescriptorWithIOInfo" [("name", n); ("access", access)]).

Definition is_member (v : hval) (value : string) : bool := match v with HStr s => String.eqb s value | _ => false end.
Definition is_class (c : option string) (cls : string) : bool := match c with Some s => String.eqb s cls | None => false end.
(** InputOutputInfo.py:144-164 *)
Definition apply_typer_to_arg_h (arg typer : hval) : hm hval :=
  run! w := get_attr typer "0" in
  if is_member w "filestd" then
    run! access := get_attr typer "1" in
    run! a := kind_of_access access in
    run! el := (if is_any_input a then compute_actual_el_for_input_h arg
                else if is_any_output a then compute_actual_el_for_output_h arg
                else hthrow GenericException) in
    run! c := class_of el in
    if is_class c "FileName" then get_from_original_filename_with_ioinfo_h el access
    else if is_class c "StdDescriptor" then get_from_original_stddescriptor_with_ioinfo_h el access
    else hret HNone
  else if is_member w "argstring" then alloc (OInst "ArgStringType" [("name", arg)])
  else hthrow GenericException.
(** InputOutputInfo.py:166-180, BasicDatatypesWithIO.py:82-84 *)
Definition apply_typer_to_flagoption_h (flagoption typer : hval) : hm hval :=
  run! c := class_of flagoption in
  if is_class c "Flag" then hret flagoption
  else if is_class c "Option" then
    run! w := get_attr typer "0" in
    run! _ := hlift (assert_ (is_member w "filestd" || is_member w "argstring")) in
    run! arg := get_attr flagoption "option_arg" in
    run! new := apply_typer_to_arg_h arg typer in
    run! n := get_attr flagoption "option_name" in
    alloc (OInst "OptionWithIO" [("option_name", n); ("option_arg", new)])
  else hthrow GenericException.

(** InputOutputInfo.py:124-142, CommandInvocationWithIO.py:10-21; [combine] is Python's [zip] *)
Definition apply_io_info_h (self cmd_inv : hval) : hm hval :=
  run! fl := get_attr cmd_inv "flag_option_list" in
  run! ft := get_attr self "flagoption_list_typer" in
  run! fos := items fl in
  run! fts := items ft in
  run! fos' := hmap (fun p => apply_typer_to_flagoption_h (fst p) (snd p)) (combine fos fts) in
  run! fl' := alloc (OList fos') in
  run! ol := get_attr cmd_inv "operand_list" in
  run! ot := get_attr self "operand_list_typer" in
  run! ops := items ol in
  run! ots := items ot in
  run! ops' := hmap (fun p => run! n := get_attr (fst p) "name" in apply_typer_to_arg_h n (snd p)) (combine ops ots) in
  run! ol' := alloc (OList ops') in
  run! name := get_attr cmd_inv "cmd_name" in
  run! i := get_attr self "implicit_use_of_streaming_input" in
  run! o := get_attr self "implicit_use_of_streaming_output" in
  alloc (OInst "CommandInvocationWithIO"
    [("cmd_name", name); ("flag_option_list", fl'); ("operand_list", ol');
     ("implicit_use_of_streaming_input", i); ("implicit_use_of_streaming_output", o)]).
