(** * Model of the texts of objects: standard_repr (util_standard.py:1-9), the other [__repr__]
    methods and the text of the report of annotation_cli.py:45-66
    Code points up to 255. *)
Require Import Verif.PyBase Verif.JsonData Verif.Parser Verif.Access Verif.IOInfo Verif.IOVars Verif.Transformers
  Verif.ParaTypes Verif.ParaGen Verif.Cli.

Definition newline : string := one_char "010".
Definition tab : string := one_char "009".

(** [repr] of a string: single quotes unless only these occur; backslashes, the quote and
    characters that cannot be printed are escaped. *)
Definition hex_digit (n : nat) : string :=
  substring n 1 "0123456789abcdef".
Definition repr_char (q c : ascii) : string :=
  let n := nat_of_ascii c in
  if Ascii.eqb c q || Ascii.eqb c "\" then "\" +++ one_char c
  else if Nat.eqb n 9 then "\t"
  else if Nat.eqb n 10 then "\n"
  else if Nat.eqb n 13 then "\r"
  else if Nat.ltb n 32 || (Nat.leb 127 n && Nat.leb n 160) || Nat.eqb n 173
  then "\x" +++ hex_digit (Nat.div n 16) +++ hex_digit (Nat.modulo n 16)
  else one_char c.
Fixpoint repr_chars (q : ascii) (s : string) : string :=
  match s with EmptyString => "" | String c s' => repr_char q c +++ repr_chars q s' end.
Fixpoint has_char (c : ascii) (s : string) : bool :=
  match s with EmptyString => false | String d s' => Ascii.eqb c d || has_char c s' end.
Definition repr_str (s : string) : string :=
  let q := if has_char "'" s && negb (has_char """" s) then """"%char else "'"%char in
  one_char q +++ repr_chars q s +++ one_char q.

(** What is printed: a string; a value whose text is given ([None], a bool, a member of an
    enumeration as an attribute, an [Operand]); a list; an instance whose class uses
    standard_repr; a [Parallelizer], whose [__repr__] alternates fixed texts and values. *)
Inductive shown : Type :=
| SStr (s : string)
| SText (t : string)
| SList (l : list shown)
| SObj (cls : string) (attrs : list (string * shown))
| SParts (parts : list (string * shown)) (final : string).

Definition join (l : list string) : string := String.concat ", " l.
Definition cat_all (l : list string) : string := fold_right String.append "" l.

(** util_standard.py:1-9 given the texts of the values *)
Definition standard_repr (cls : string) (attrs : list (string * string)) : string :=
  ("<class '" +++ cls +++ "'>") +++
  (match attrs with [] => newline | _ => ": " +++ newline end) +++
  cat_all (map (fun p => tab +++ " " +++ fst p +++ ": " +++ snd p +++ newline) attrs).

(** The text in an f-string; elements of lists are printed by [repr], which differs for
    strings only. *)
Fixpoint text (v : shown) : string :=
  match v with
  | SStr s => s
  | SText t => t
  | SList l => "[" +++ join (map (fun x => match x with SStr s => repr_str s | _ => text x end) l) +++ "]"
  | SObj cls attrs => standard_repr cls (map (fun p => (fst p, text (snd p))) attrs)
  | SParts parts final => cat_all (map (fun p => fst p +++ text (snd p)) parts) +++ final
  end.

(** ** The objects of the report *)
Definition datatypes : string := "pash_annotations.datatypes.".
Definition para : string := "pash_annotations.annotation_generation.datatypes.parallelizability.".

(** BasicDatatypes.py:69-94; CommandInvocationInitial.py:8-14; Operand: BasicDatatypes.py:103-107 *)
Definition shown_flag (n : string) : shown := SObj (datatypes +++ "BasicDatatypes.Flag") [("flag_name", SStr n)].
Definition shown_fo (fo : flag_option) : shown :=
  match fo with
  | Flag n => shown_flag n
  | Option_ n a => SObj (datatypes +++ "BasicDatatypes.Option") [("option_name", SStr n); ("option_arg", SStr a)]
  end.
Definition shown_invocation (i : invocation) : shown :=
  SObj (datatypes +++ "CommandInvocationInitial.CommandInvocationInitial")
    [("cmd_name", SStr (cmd_name i)); ("flag_option_list", SList (map shown_fo (flag_option_list i)));
     ("operand_list", SList (map SText (operand_list i)))].

(** AccessKind.py:5-21 *)
Definition access_name (a : access) : string :=
  match a with
  | CONFIG_INPUT => "CONFIG_INPUT" | STREAM_INPUT => "STREAM_INPUT"
  | CONTAINER_FOR_INPUT => "CONTAINER_FOR_INPUT" | EXCLUDES_FROM_INPUT => "EXCLUDES_FROM_INPUT"
  | OTHER_INPUT => "OTHER_INPUT" | STREAM_OUTPUT => "STREAM_OUTPUT" | OTHER_OUTPUT => "OTHER_OUTPUT"
  end.
Definition shown_access (a : access) : shown :=
  SObj (datatypes +++ "AccessKind.AccessKind") [("kind", SText ("AccessKindEnum." +++ access_name a))].
(** BasicDatatypes.py:33-36, BasicDatatypesWithIO.py:23-37 *)
Definition std_name (d : std) : string := match d with STDIN => "STDIN" | STDOUT => "STDOUT" | STDERR => "STDERR" end.
Definition shown_resource (r : resource) : shown :=
  match res_el r with
  | FileName n => SObj (datatypes +++ "BasicDatatypesWithIO.FileNameWithIOInfo")
                    [("name", SStr n); ("access", shown_access (res_access r))]
  | StdDescriptor d => SObj (datatypes +++ "BasicDatatypesWithIO.StdDescriptorWithIOInfo")
                         [("name", SText ("StdDescriptorEnum." +++ std_name d)); ("access", shown_access (res_access r))]
  end.
(** BasicDatatypes.py:59-65, BasicDatatypesWithIO.py:84-97 *)
Definition shown_arg (a : io_arg) : shown :=
  match a with
  | ArgString s => SObj (datatypes +++ "BasicDatatypes.ArgStringType") [("name", SStr s)]
  | Res r => shown_resource r
  end.
Definition shown_fo_io (fo : flag_option_io) : shown :=
  match fo with
  | FlagIO n => shown_flag n
  | OptionIO n a => SObj (datatypes +++ "BasicDatatypesWithIO.OptionWithIO") [("option_name", SStr n); ("option_arg", shown_arg a)]
  end.
Definition shown_implicit (r : option resource) : shown :=
  match r with None => SText "None" | Some r => shown_resource r end.
(** CommandInvocationWithIO.py:10-25 *)
Definition shown_invocation_io (c : invocation_io) : shown :=
  SObj (datatypes +++ "CommandInvocationWithIO.CommandInvocationWithIO")
    [("cmd_name", SStr (io_cmd_name c)); ("flag_option_list", SList (map shown_fo_io (io_flag_option_list c)));
     ("operand_list", SList (map shown_arg (io_operand_list c)));
     ("implicit_use_of_streaming_input", shown_implicit (io_implicit_input c));
     ("implicit_use_of_streaming_output", shown_implicit (io_implicit_output c))].

Definition shown_bool (b : bool) : shown := SText (if b then "True" else "False").
(** Splitter.py:19-20 *)
Definition splitter_name (s : splitter) : string :=
  match s with
  | INDIV_FILES => "INDIV_FILES" | ROUND_ROBIN_PLAIN => "ROUND_ROBIN_PLAIN"
  | ROUND_ROBIN_UNWRAP_FLAG => "ROUND_ROBIN_UNWRAP_FLAG" | CONSEC_CHUNKS => "CONSEC_CHUNKS"
  end.
Definition agg_kind_name (k : agg_kind) : string :=
  match k with
  | CONCATENATE => "CONCATENATE" | ADJ_LINES_MERGE => "ADJ_LINES_MERGE" | ADJ_LINES_SEQ => "ADJ_LINES_SEQ"
  | ADJ_LINES_FUNC => "ADJ_LINES_FUNC" | CUSTOM_2_ARY => "CUSTOM_2_ARY" | CUSTOM_N_ARY => "CUSTOM_N_ARY"
  end.
Definition mapper_kind_name (k : mapper_kind) : string :=
  match k with SAME_AS_SEQ => "SAME_AS_SEQ" | CUSTOM => "CUSTOM" end.

Section Transformers.
(** What Python prints for an element of a list of flags that is no [Flag]: for an
    [OptionWithIOVar] (no [__repr__]) it contains an address.  No generator makes these. *)
Variable other : flag_el -> string.
Definition shown_flag_el (x : flag_el) : shown :=
  match x with FFlag n => shown_flag n | _ => SText (other x) end.
(** TransformerFlagOptionList.py:26-27, 58, 68, 81, 92, 103, 113, 145 *)
Fixpoint shown_transformer (t : transformer) : shown :=
  let cls n := para +++ "TransformerFlagOptionList." +++ n in
  match t with
  | TSeq => SObj (cls "TransformerFlagOptionListSeq") []
  | TAdd l => SObj (cls "TransformerFlagOptionListAdd") [("list_to_add", SList (map shown_flag_el l))]
  | TRemove l => SObj (cls "TransformerFlagOptionListRemove") [("list_to_remove", SList (map SStr l))]
  | TFilter l => SObj (cls "TransformerFlagOptionListFilter") [("list_filter", SList (map SStr l))]
  | TEmpty => SObj (cls "TransformerFlagOptionListEmpty") []
  | TCustom l => SObj (cls "TransformerFlagOptionListCustom") [("list_custom", SList (map shown_flag_el l))]
  | TChain ts => SObj (cls "ChainTransformerFlagOptionList") [("list_transformers", SList (map shown_transformer ts))]
  end.
(** MapperSpec.py:33-37, 52-53 *)
Definition shown_mapper (m : mapper_spec) : shown :=
  SObj (para +++ "MapperSpec.MapperSpec")
    [("kind", SText ("MapperSpecKindEnum." +++ mapper_kind_name (ms_kind m)));
     ("spec_mapper_cmd_name", match ms_cmd_name m with None => SText "None" | Some n => SStr n end);
     ("flag_option_list_transformer", shown_transformer (ms_transformer m));
     ("is_implemented", shown_bool (ms_is_implemented m))].
(** AggregatorSpec.py:42-46, 52-53, 162-167, 203-213, 251-259 *)
Definition shown_aggregator (a : agg_spec) : shown :=
  let cls n := para +++ "AggregatorSpec." +++ n in
  let base k b := [("kind", SText ("AggregatorKindEnum." +++ agg_kind_name k)); ("is_implemented", shown_bool b)] in
  match a with
  | AggNonFunc k b => SObj (cls "AggregatorSpecNonFunc") (base k b)
  | AggTransformer k t b => SObj (cls "AggregatorSpecFuncTransformer")
                              (base k b ++ [("flag_option_list_transformer", shown_transformer t)])
  | AggString k s b => SObj (cls "AggregatorSpecFuncStringRepresentation") (base k b ++ [("cmd_inv_as_str", SStr s)])
  end.
(** Parallelizer.py:55-59: neither of the two additional pieces of information is printed. *)
Definition shown_parallelizer (p : parallelizer) : shown :=
  SParts [("Parallizer: " +++ newline +++ "splitter: ", SText ("SplitterKindEnum." +++ splitter_name (p_splitter p)));
          (" " +++ newline +++ "mapper attr: ", shown_mapper (p_mapper p));
          (" " +++ newline +++ "aggregator attr: ", shown_aggregator (p_aggregator p))] (" " +++ newline).
(** ParallelizabilityInfo.py:10-22; [package]: the way the module was imported *)
Definition shown_para_info (package : string) (i : para_info) : shown :=
  SObj (package +++ "annotation_generation.datatypes.ParallelizabilityInfo.ParallelizabilityInfo")
    [("parallelizer_list", SList (map shown_parallelizer (parallelizer_list i)));
     ("round_robin_compatible_with_cat", shown_bool (round_robin_compatible_with_cat i));
     ("is_commutative", shown_bool (is_commutative i))].

(** annotation_cli.py:52-61 *)
Definition io_section_text (s : io_section) : string :=
  match s with
  | SideEffectful => "Information not provided so considered side-effectful."
  | OtherOutputs => "Provided command has outputs other than streaming."
  | Applied c => text (shown_invocation_io c)
  end.
(** annotation_cli.py:62-66: without information the default is made from the class imported
    by the script, which is not the class of the package. *)
Definition para_section_text (i : option para_info) : string :=
  text (match i with Some i => shown_para_info "pash_annotations." i | None => shown_para_info "" new_para_info end).
(** annotation_cli.py:45-66 *)
Definition report_text (dir : data_dir) (r : report) : string :=
  ">>> READ COMMAND INVOCATION: " +++ newline +++ r_command r +++ newline +++ newline +++
  ">>> PARSED COMMAND INVOCATION: " +++ newline +++
  text (shown_invocation (r_invocation r)) +++ newline +++
  ">>> INPUT-OUTPUT INFORMATION (applied to command invocation if possible): " +++ newline +++
  io_section_text (r_io r) +++ newline +++
  ">>> PARALLELIZABILITY INFORMATION: " +++ newline +++
  para_section_text (get_parallelizability_info dir (r_invocation r)).
End Transformers.
