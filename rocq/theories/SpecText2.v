(** * Specification of the texts of all objects, line by line *)
Require Import Verif.PyBase Verif.Parser Verif.Access Verif.IOInfo Verif.IOVars Verif.Transformers Verif.ParaTypes Verif.Cli.

Definition tab_char : string := String "009" "".
Definition line_end : string := String "010" "".
Definition all_lines (l : list string) : string := String.concat "" (map (fun x => x +++ line_end) l).

(** ** Every line of every object
    The names of the members, as the enumerations of the repository declare them. *)
Definition access_names : list (access * string) :=
  [(CONFIG_INPUT, "CONFIG_INPUT"); (STREAM_INPUT, "STREAM_INPUT"); (CONTAINER_FOR_INPUT, "CONTAINER_FOR_INPUT");
   (EXCLUDES_FROM_INPUT, "EXCLUDES_FROM_INPUT"); (OTHER_INPUT, "OTHER_INPUT"); (STREAM_OUTPUT, "STREAM_OUTPUT"); (OTHER_OUTPUT, "OTHER_OUTPUT")].
Definition std_names : list (std * string) := [(STDIN, "STDIN"); (STDOUT, "STDOUT"); (STDERR, "STDERR")].
Definition splitter_names : list (splitter * string) :=
  [(INDIV_FILES, "INDIV_FILES"); (ROUND_ROBIN_PLAIN, "ROUND_ROBIN_PLAIN"); (ROUND_ROBIN_UNWRAP_FLAG, "ROUND_ROBIN_UNWRAP_FLAG");
   (CONSEC_CHUNKS, "CONSEC_CHUNKS")].
Definition mapper_names : list (mapper_kind * string) := [(SAME_AS_SEQ, "SAME_AS_SEQ"); (CUSTOM, "CUSTOM")].
Definition agg_names : list (agg_kind * string) :=
  [(CONCATENATE, "CONCATENATE"); (ADJ_LINES_MERGE, "ADJ_LINES_MERGE"); (ADJ_LINES_SEQ, "ADJ_LINES_SEQ"); (ADJ_LINES_FUNC, "ADJ_LINES_FUNC");
   (CUSTOM_2_ARY, "CUSTOM_2_ARY"); (CUSTOM_N_ARY, "CUSTOM_N_ARY")].
(** [object path lines]: the text of an object of the class [path]. *)
Definition object (path : string) (lines : list string) : string :=
  all_lines (("<class 'pash_annotations." +++ path +++ "'>: ") :: map (fun l => tab_char +++ " " +++ l) lines).
Definition listed (l : list string) : string := "[" +++ String.concat ", " l +++ "]".
Definition truth (b : bool) : string := if b then "True" else "False".

Inductive resource_text : resource -> string -> Prop :=
| text_file n a an : In (a, an) access_names ->
    resource_text (mkRes (FileName n) a)
      (object "datatypes.BasicDatatypesWithIO.FileNameWithIOInfo"
         ["name: " +++ n; "access: " +++ object "datatypes.AccessKind.AccessKind" ["kind: AccessKindEnum." +++ an]])
| text_std d dn a an : In (a, an) access_names -> In (d, dn) std_names ->
    resource_text (mkRes (StdDescriptor d) a)
      (object "datatypes.BasicDatatypesWithIO.StdDescriptorWithIOInfo"
         ["name: StdDescriptorEnum." +++ dn; "access: " +++ object "datatypes.AccessKind.AccessKind" ["kind: AccessKindEnum." +++ an]]).
Inductive arg_text : io_arg -> string -> Prop :=
| text_string s : arg_text (ArgString s) (object "datatypes.BasicDatatypes.ArgStringType" ["name: " +++ s])
| text_res r t : resource_text r t -> arg_text (Res r) t.
Inductive fo_text : flag_option_io -> string -> Prop :=
| text_flag n : fo_text (FlagIO n) (object "datatypes.BasicDatatypes.Flag" ["flag_name: " +++ n])
| text_option n a t : arg_text a t ->
    fo_text (OptionIO n a) (object "datatypes.BasicDatatypesWithIO.OptionWithIO" ["option_name: " +++ n; "option_arg: " +++ t]).
Inductive implicit_text : option resource -> string -> Prop :=
| text_none : implicit_text None "None"
| text_some r t : resource_text r t -> implicit_text (Some r) t.
Inductive invocation_text : invocation_io -> string -> Prop :=
| text_invocation n fos fts ops ots i it o ot :
    Forall2 fo_text fos fts -> Forall2 arg_text ops ots -> implicit_text i it -> implicit_text o ot ->
    invocation_text (mkInvIO n fos ops i o)
      (object "datatypes.CommandInvocationWithIO.CommandInvocationWithIO"
         ["cmd_name: " +++ n; "flag_option_list: " +++ listed fts; "operand_list: " +++ listed ots;
          "implicit_use_of_streaming_input: " +++ it; "implicit_use_of_streaming_output: " +++ ot]).
(** The parsed invocation: operands are printed as they are, also in lists. *)
Inductive plain_fo_text : flag_option -> string -> Prop :=
| text_plain_flag n : plain_fo_text (Flag n) (object "datatypes.BasicDatatypes.Flag" ["flag_name: " +++ n])
| text_plain_option n a :
    plain_fo_text (Option_ n a) (object "datatypes.BasicDatatypes.Option" ["option_name: " +++ n; "option_arg: " +++ a]).
Inductive parsed_text : invocation -> string -> Prop :=
| text_parsed n fos fts ops : Forall2 plain_fo_text fos fts ->
    parsed_text (mkInv n fos ops)
      (object "datatypes.CommandInvocationInitial.CommandInvocationInitial"
         ["cmd_name: " +++ n; "flag_option_list: " +++ listed fts; "operand_list: " +++ listed ops]).

Section Transformers.
Variable quoted : string -> string. (* strings in lists *)
Variable other : flag_el -> string. (* elements that are no flags *)
Definition path (c : string) : string := "annotation_generation.datatypes.parallelizability." +++ c.
(** A class without attributes: no colon. *)
Definition bare (c : string) : string := "<class 'pash_annotations." +++ path c +++ "'>" +++ line_end.
Inductive element_text : flag_el -> string -> Prop :=
| text_fflag n : element_text (FFlag n) (object "datatypes.BasicDatatypes.Flag" ["flag_name: " +++ n])
| text_other x : (forall n, x <> FFlag n) -> element_text x (other x).
Inductive transformer_text : transformer -> string -> Prop :=
| text_seq : transformer_text TSeq (bare "TransformerFlagOptionList.TransformerFlagOptionListSeq")
| text_empty : transformer_text TEmpty (bare "TransformerFlagOptionList.TransformerFlagOptionListEmpty")
| text_add l ts : Forall2 element_text l ts ->
    transformer_text (TAdd l) (object (path "TransformerFlagOptionList.TransformerFlagOptionListAdd") ["list_to_add: " +++ listed ts])
| text_custom l ts : Forall2 element_text l ts ->
    transformer_text (TCustom l) (object (path "TransformerFlagOptionList.TransformerFlagOptionListCustom") ["list_custom: " +++ listed ts])
| text_remove l :
    transformer_text (TRemove l)
      (object (path "TransformerFlagOptionList.TransformerFlagOptionListRemove") ["list_to_remove: " +++ listed (map quoted l)])
| text_filter l :
    transformer_text (TFilter l)
      (object (path "TransformerFlagOptionList.TransformerFlagOptionListFilter") ["list_filter: " +++ listed (map quoted l)])
| text_chain l ts : Forall2 transformer_text l ts ->
    transformer_text (TChain l)
      (object (path "TransformerFlagOptionList.ChainTransformerFlagOptionList") ["list_transformers: " +++ listed ts]).
Inductive mapper_text : mapper_spec -> string -> Prop :=
| text_mapper k kn c t tt b : In (k, kn) mapper_names -> transformer_text t tt ->
    mapper_text (mkMapperSpec k c t b)
      (object (path "MapperSpec.MapperSpec")
         ["kind: MapperSpecKindEnum." +++ kn; "spec_mapper_cmd_name: " +++ match c with None => "None" | Some c => c end;
          "flag_option_list_transformer: " +++ tt; "is_implemented: " +++ truth b]).
Inductive agg_text : agg_spec -> string -> Prop :=
| text_nonfunc k kn b : In (k, kn) agg_names ->
    agg_text (AggNonFunc k b)
      (object (path "AggregatorSpec.AggregatorSpecNonFunc") ["kind: AggregatorKindEnum." +++ kn; "is_implemented: " +++ truth b])
| text_aggtrans k kn t tt b : In (k, kn) agg_names -> transformer_text t tt ->
    agg_text (AggTransformer k t b)
      (object (path "AggregatorSpec.AggregatorSpecFuncTransformer")
         ["kind: AggregatorKindEnum." +++ kn; "is_implemented: " +++ truth b; "flag_option_list_transformer: " +++ tt])
| text_aggstring k kn s b : In (k, kn) agg_names ->
    agg_text (AggString k s b)
      (object (path "AggregatorSpec.AggregatorSpecFuncStringRepresentation")
         ["kind: AggregatorKindEnum." +++ kn; "is_implemented: " +++ truth b; "cmd_inv_as_str: " +++ s]).
(** The class prints itself without tabs; the additional information is left out. *)
Inductive parallelizer_text : parallelizer -> string -> Prop :=
| text_parallelizer s sn m mt a at_ i n : In (s, sn) splitter_names -> mapper_text m mt -> agg_text a at_ ->
    parallelizer_text (mkPar s m a i n)
      (all_lines ["Parallizer: "; "splitter: SplitterKindEnum." +++ sn +++ " "; "mapper attr: " +++ mt +++ " "; "aggregator attr: " +++ at_ +++ " "]).
Inductive para_text : para_info -> string -> Prop :=
| text_para l ts rr co : Forall2 parallelizer_text l ts ->
    para_text (mkPI l rr co)
      (object "annotation_generation.datatypes.ParallelizabilityInfo.ParallelizabilityInfo"
         ["parallelizer_list: " +++ listed ts; "round_robin_compatible_with_cat: " +++ truth rr; "is_commutative: " +++ truth co]).
(** What the script prints without information: the class has another name there. *)
Definition no_para_text : string :=
  all_lines ["<class 'annotation_generation.datatypes.ParallelizabilityInfo.ParallelizabilityInfo'>: "; tab_char +++ " parallelizer_list: []";
             tab_char +++ " round_robin_compatible_with_cat: False"; tab_char +++ " is_commutative: False"].
Inductive io_part : io_section -> string -> Prop :=
| part_effects : io_part SideEffectful "Information not provided so considered side-effectful."
| part_outputs : io_part OtherOutputs "Provided command has outputs other than streaming."
| part_applied c t : invocation_text c t -> io_part (Applied c) t.
Inductive para_part : option para_info -> string -> Prop :=
| part_none : para_part None no_para_text
| part_some i t : para_text i t -> para_part (Some i) t.
End Transformers.
(** The report: the command line, three empty or headed parts, one after the other. *)
Definition report_of (command parsed io para : string) : string :=
  String.concat line_end [">>> READ COMMAND INVOCATION: "; command; ""; ">>> PARSED COMMAND INVOCATION: "; parsed;
    ">>> INPUT-OUTPUT INFORMATION (applied to command invocation if possible): "; io; ">>> PARALLELIZABILITY INFORMATION: "; para].
