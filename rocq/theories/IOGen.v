(** * Model of the input/output information generators
    (annotation_generation/annotation_generators/InputOutputInfoGenerator*.py) and of
    annotation_generation/AnnotationGeneration.py:13-80 *)
Require Import Verif.PyBase Verif.JsonData Verif.Parser Verif.Access Verif.IOInfo.

(** ** Generator_Interface.py (shared with the parallelizability generators) *)

(** Generator_Interface.py:25-26 *)
Definition get_flag_option_list_filtered_with (inv : invocation) (names : list string) : list flag_option :=
  filter (fun fo => mem (fo_name fo) names) (flag_option_list inv).
(** Generator_Interface.py:22-23 *)
Definition contains_one_of (inv : invocation) (names : list string) : bool :=
  Nat.ltb 0 (length (get_flag_option_list_filtered_with inv names)).
(** Generator_Interface.py:28-29 *)
Definition operand_list_length (inv : invocation) : nat := length (operand_list inv).
(** Generator_Interface.py:31-36 *)
Definition get_first_operand_name (inv : invocation) : result string :=
  match operand_list inv with [] => Raise IndexError | o :: _ => Ok o end.

(** ** InputOutputInfoGenerator_Interface.py *)

(** config/definitions.py:5 *)
Definition INDICATORS_FOR_FILENAMES : list string := ["FILE"; "DIR"; "DIRECTORY"].

(** InputOutputInfoGenerator_Interface.py:68-85, the body of the loop: the first
    element of the entry and its class.  The element is the argument itself if the
    entry has no spelling ([TypeError] for an unhashable list). *)
Definition option_class (e : option_entry) : result (string * typer) :=
  let! name := match oe_names e with
               | n :: _ => Ok n
               | [] => match oe_arg e with OAStr s => Ok s | OAList _ => Raise TypeError end
               end in
  match oe_arg e with
  | OAList l =>
      match l with
      | ty :: ac :: _ =>
          let! a := get_access_from_string ac in
          Ok (name, if mem ty INDICATORS_FOR_FILENAMES then FILESTD a else ARGSTRING)
      | _ => Raise IndexError
      end
  | OAStr ty =>
      let! _ := assert_ (negb (mem ty INDICATORS_FOR_FILENAMES)) in
      Ok (name, ARGSTRING)
  end.

(** InputOutputInfoGenerator_Interface.py:63-86 *)
Definition get_dict_option_to_class_for_arg (dir : data_dir) (name : string) : result (dict typer) :=
  let! j := get_json_data dir name in
  let! entries := map_result option_class (j_option j) in
  Ok (fold_left (fun d p => dict_set d (fst p) (snd p)) entries []).

(** InputOutputInfoGenerator_Interface.py:47-61 *)
Definition get_flagoption_list_typer (dir : data_dir) (inv : invocation) : result (list typer) :=
  let! d := get_dict_option_to_class_for_arg dir (cmd_name inv) in
  map_result (fun fo => match fo with
                        | Flag _ => Ok PLAINSTRING
                        | Option_ n _ => dict_get d n
                        end) (flag_option_list inv).

(** InputOutputInfoGenerator_Interface.py:26-35: the constructor *)
Definition init_io_info (dir : data_dir) (inv : invocation) : result io_info :=
  let! t := get_flagoption_list_typer dir inv in
  Ok (new_io_info t (length (operand_list inv))).

(** InputOutputInfoGenerator_Interface.py:98-100 *)
Definition if_no_operands_given_stdin_implicitly_used (inv : invocation) (i : io_info) : io_info :=
  if Nat.eqb (length (operand_list inv)) 0 then set_implicit_use_of_stdin true i else i.

(** ** The [generate_info] methods *)
Definition generator : Type := invocation -> io_info -> result io_info.

(** InputOutputInfoGeneratorAltBigramAuxReduce.py:6-8 *)
Definition io_alt_bigram_aux_reduce : generator := fun inv i =>
  let i := all_operands_are_streaming_inputs i in
  Ok (set_implicit_use_of_stdout true i).

(** InputOutputInfoGenerator{AltBigramsAux,BigramsAux,Col,TestOne,TestTwo}.py:5-8 *)
Definition io_stdin_stdout : generator := fun inv i =>
  let i := set_implicit_use_of_stdin true i in
  Ok (set_implicit_use_of_stdout true i).

(** InputOutputInfoGeneratorAwk.py:6-20 *)
Definition io_awk : generator := fun inv i =>
  let i := set_implicit_use_of_stdout true i in
  if contains_one_of inv ["-f"] then
    if Nat.eqb (operand_list_length inv) 0 then Ok (set_implicit_use_of_stdin true i)
    else Ok (all_operands_are_streaming_inputs i)
  else
    let! i := set_first_operand_as_config_arg_type_string i in
    if Nat.eqb (operand_list_length inv) 1 then Ok (set_implicit_use_of_stdin true i)
    else Ok (all_but_first_operand_is_streaming_input i).

(** InputOutputInfoGenerator{Cat,Cut,Head,Tail}.py:12-16 *)
Definition io_cat : generator := fun inv i =>
  let i := set_implicit_use_of_stdout true i in
  let i := if_no_operands_given_stdin_implicitly_used inv i in
  Ok (all_operands_are_streaming_inputs i).

(** InputOutputInfoGeneratorComm.py:13-16 *)
Definition io_comm : generator := fun inv i =>
  let i := set_implicit_use_of_stdout true i in
  let! _ := assert_ (Nat.eqb (operand_list_length inv) 2) in
  Ok (all_operands_are_streaming_inputs i).

(** InputOutputInfoGeneratorSort.py:8-15, InputOutputInfoGeneratorCustomSort.py:6-13 *)
Definition io_sort : generator := fun inv i =>
  let i := if negb (contains_one_of inv ["-o"]) then set_implicit_use_of_stdout true i else i in
  if Nat.eqb (operand_list_length inv) 0 && negb (contains_one_of inv ["--files0-from"])
  then Ok (set_implicit_use_of_stdin true i)
  else Ok (all_operands_are_streaming_inputs i).

(** InputOutputInfoGeneratorTr.py:13-16, InputOutputInfoGeneratorCustomTr.py:7-10 *)
Definition io_tr : generator := fun inv i =>
  let i := set_implicit_use_of_stdin true i in
  let i := set_implicit_use_of_stdout true i in
  Ok (set_all_operands_as_config_arg_type_string i).

(** InputOutputInfoGeneratorDiff.py:6-8 *)
Definition io_diff : generator := fun inv i =>
  let i := set_implicit_use_of_stdout true i in
  Ok (all_operands_are_streaming_inputs i).

(** InputOutputInfoGeneratorGrep.py:19-34 *)
Definition io_grep : generator := fun inv i =>
  let i := if negb (contains_one_of inv ["-q"]) then set_implicit_use_of_stdout true i else i in
  if contains_one_of inv ["-e"; "-f"] then
    if Nat.eqb (operand_list_length inv) 0 then Ok (set_implicit_use_of_stdin true i)
    else Ok (all_operands_are_streaming_inputs i)
  else
    let! i := set_first_operand_as_config_arg_type_string i in
    if Nat.eqb (operand_list_length inv) 1 then Ok (set_implicit_use_of_stdin true i)
    else Ok (all_but_first_operand_is_streaming_input i).

(** InputOutputInfoGenerator{Mkfifo,Rm}.py:6-7 *)
Definition io_rm : generator := fun inv i => Ok (all_operands_are_other_outputs i).

(** InputOutputInfoGeneratorMv.py:33-44 *)
Definition io_mv : generator := fun inv i =>
  match length (get_flag_option_list_filtered_with inv ["-t"]) with
  | 0 => let! i := all_but_last_operand_is_other_input i in
         only_last_operand_is_other_output i
  | 1 => Ok (all_operands_are_other_inputs i)
  | _ => Raise GenericException
  end.

(** InputOutputInfoGeneratorSed.py:6-13 *)
Definition io_sed : generator := fun inv i =>
  let i := set_implicit_use_of_stdin true i in
  let i := set_implicit_use_of_stdout true i in
  if negb (contains_one_of inv ["-e"; "-f"]) then
    let! i := set_first_operand_as_config_arg_type_string i in
    Ok (all_but_first_operand_is_streaming_input i)
  else Ok (all_operands_are_streaming_inputs i).

(** InputOutputInfoGeneratorSeq.py:6-8 *)
Definition io_seq : generator := fun inv i =>
  let i := set_implicit_use_of_stdout true i in
  Ok (set_all_operands_as_config_arg_type_string i).

(** InputOutputInfoGeneratorSetDiff.py:6-10 *)
Definition io_set_diff : generator := fun inv i =>
  let i := set_implicit_use_of_stdin true i in
  let i := set_implicit_use_of_stdout true i in
  let! _ := assert_ (Nat.eqb (operand_list_length inv) 1) in
  set_first_operand_as_config_arg_type_filename_or_std_descriptor i.

(** InputOutputInfoGeneratorTee.py:6-10 *)
Definition io_tee : generator := fun inv i =>
  let i := set_implicit_use_of_stdin true i in
  let i := set_implicit_use_of_stdout true i in
  Ok (all_operands_are_streaming_outputs i).

(** InputOutputInfoGeneratorUniq.py:12-25 *)
Definition io_uniq : generator := fun inv i =>
  if Nat.eqb (operand_list_length inv) 0 then
    Ok (set_implicit_use_of_stdout true (set_implicit_use_of_stdin true i))
  else if Nat.eqb (operand_list_length inv) 1 then
    Ok (set_implicit_use_of_stdout true (all_operands_are_streaming_inputs i))
  else if Nat.eqb (operand_list_length inv) 2 then
    only_last_operand_is_stream_output (all_but_last_operand_is_streaming_input i)
  else Raise GenericException.

(** InputOutputInfoGeneratorWc.py:6-15 *)
Definition io_wc : generator := fun inv i =>
  if contains_one_of inv ["--files0-from"] then Raise GenericException
  else if Nat.eqb (operand_list_length inv) 0 then
    Ok (set_implicit_use_of_stdout true (set_implicit_use_of_stdin true i))
  else Ok (set_implicit_use_of_stdout true (all_operands_are_streaming_inputs i)).

(** InputOutputInfoGeneratorXargs.py:6-10 *)
Definition io_xargs : generator := fun inv i =>
  let i := set_all_operands_as_arg_string i in
  let i := set_implicit_use_of_stdin true i in
  Ok (set_implicit_use_of_stdout true i).

(** AnnotationGeneration.py:13-44 *)
Definition cmd_representation : dict string :=
  [("alt_bigrams_aux", "AltBigramsAux"); ("alt_bigram_aux_reduce", "AltBigramAuxReduce");
   ("awk", "Awk"); ("bigrams_aux", "BigramsAux"); ("bigram_aux_map", "BigramAuxMap");
   ("bigram_aux_reduce", "BigramAuxReduce"); ("cat", "Cat"); ("col", "Col"); ("comm", "Comm");
   ("custom_sort", "CustomSort"); ("custom_tr", "CustomTr"); ("cut", "Cut"); ("diff", "Diff");
   ("grep", "Grep"); ("head", "Head"); ("mkfifo", "Mkfifo"); ("mv", "Mv"); ("rm", "Rm");
   ("sed", "Sed"); ("set_diff", "SetDiff"); ("seq", "Seq"); ("sort", "Sort"); ("tail", "Tail");
   ("tee", "Tee"); ("test_one", "TestOne"); ("test_two", "TestTwo"); ("tr", "Tr");
   ("uniq", "Uniq"); ("wc", "Wc"); ("xargs", "Xargs")].

(** The classes InputOutputInfoGeneratorXxx imported by AnnotationGeneration.py:58-65,
    that is, the files that exist. *)
Definition io_generator_classes : dict generator :=
  [("AltBigramAuxReduce", io_alt_bigram_aux_reduce); ("AltBigramsAux", io_stdin_stdout);
   ("Awk", io_awk); ("BigramsAux", io_stdin_stdout); ("Cat", io_cat); ("Col", io_stdin_stdout);
   ("Comm", io_comm); ("CustomSort", io_sort); ("CustomTr", io_tr); ("Cut", io_cat);
   ("Diff", io_diff); ("Grep", io_grep); ("Head", io_cat); ("Mkfifo", io_rm); ("Mv", io_mv);
   ("Rm", io_rm); ("Sed", io_sed); ("Seq", io_seq); ("SetDiff", io_set_diff); ("Sort", io_sort);
   ("Tail", io_cat); ("Tee", io_tee); ("TestOne", io_stdin_stdout); ("TestTwo", io_stdin_stdout);
   ("Tr", io_tr); ("Uniq", io_uniq); ("Wc", io_wc); ("Xargs", io_xargs)].

(** [str(DICT.get(cmd_name))], AnnotationGeneration.py:71-73, 84 *)
Definition representation_of (name : string) : string :=
  dict_get_default cmd_representation name "None".

(** AnnotationGeneration.py:69-80; [str_to_class] raises [AttributeError] (any
    exception becomes [None]) if there is no such class. *)
Definition get_input_output_info (dir : data_dir) (inv : invocation) : option io_info :=
  except_none
    (let! g := dict_get io_generator_classes (representation_of (cmd_name inv)) in
     let! i := init_io_info dir inv in
     g inv i).
