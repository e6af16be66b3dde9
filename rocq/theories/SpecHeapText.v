(** * Specification of the texts of objects *)
From Coq Require Import ZArith DecimalString.
Require Import Verif.PyBase Verif.Access Verif.IOInfo Verif.IOVars Verif.ParaTypes Verif.Heap Verif.SpecHeap Verif.SpecHeapEq Verif.SpecText Verif.Text.

(** The full names of the classes, with [true] for those that print their attributes *)
Definition classes : list (string * bool * string) :=
  [("FileName", true, "pash_annotations.datatypes.BasicDatatypes.FileName");
   ("StdDescriptor", true, "pash_annotations.datatypes.BasicDatatypes.StdDescriptor");
   ("ArgStringType", true, "pash_annotations.datatypes.BasicDatatypes.ArgStringType");
   ("Flag", true, "pash_annotations.datatypes.BasicDatatypes.Flag");
   ("Option", true, "pash_annotations.datatypes.BasicDatatypes.Option");
   ("FileNameWithIOInfo", true, "pash_annotations.datatypes.BasicDatatypesWithIO.FileNameWithIOInfo");
   ("StdDescriptorWithIOInfo", true, "pash_annotations.datatypes.BasicDatatypesWithIO.StdDescriptorWithIOInfo");
   ("OptionWithIO", true, "pash_annotations.datatypes.BasicDatatypesWithIO.OptionWithIO");
   ("OperandWithIO", false, "pash_annotations.datatypes.BasicDatatypesWithIO.OperandWithIO");
   ("OptionWithIOVar", false, "pash_annotations.datatypes.BasicDatatypesWithIOVar.OptionWithIOVar");
   ("AccessKind", true, "pash_annotations.datatypes.AccessKind.AccessKind");
   ("CommandInvocationWithIOVars", true, "pash_annotations.datatypes.CommandInvocationWithIOVars.CommandInvocationWithIOVars");
   ("Mapper", true, "pash_annotations.annotation_generation.datatypes.parallelizability.Mapper.Mapper");
   ("Aggregator", true, "pash_annotations.annotation_generation.datatypes.parallelizability.Aggregator.Aggregator");
   ("Inputs", false, "pash_annotations.annotation_generation.datatypes.Inputs.Inputs")].

(** Members of enumerations with their names and numbers *)
Definition members : list (hval * (string * string)) :=
  [(HAccess CONFIG_INPUT, ("AccessKindEnum.CONFIG_INPUT", "0")); (HAccess STREAM_INPUT, ("AccessKindEnum.STREAM_INPUT", "1"));
   (HAccess CONTAINER_FOR_INPUT, ("AccessKindEnum.CONTAINER_FOR_INPUT", "2"));
   (HAccess EXCLUDES_FROM_INPUT, ("AccessKindEnum.EXCLUDES_FROM_INPUT", "3"));
   (HAccess OTHER_INPUT, ("AccessKindEnum.OTHER_INPUT", "4")); (HAccess STREAM_OUTPUT, ("AccessKindEnum.STREAM_OUTPUT", "5"));
   (HAccess OTHER_OUTPUT, ("AccessKindEnum.OTHER_OUTPUT", "6"));
   (HStd STDIN, ("StdDescriptorEnum.STDIN", "0")); (HStd STDOUT, ("StdDescriptorEnum.STDOUT", "1")); (HStd STDERR, ("StdDescriptorEnum.STDERR", "2"));
   (HKind CONCATENATE, ("AggregatorKindEnum.CONCATENATE", "1")); (HKind ADJ_LINES_MERGE, ("AggregatorKindEnum.ADJ_LINES_MERGE", "2"));
   (HKind ADJ_LINES_SEQ, ("AggregatorKindEnum.ADJ_LINES_SEQ", "3")); (HKind ADJ_LINES_FUNC, ("AggregatorKindEnum.ADJ_LINES_FUNC", "4"));
   (HKind CUSTOM_2_ARY, ("AggregatorKindEnum.CUSTOM_2_ARY", "5")); (HKind CUSTOM_N_ARY, ("AggregatorKindEnum.CUSTOM_N_ARY", "6"));
   (HSplit INDIV_FILES, ("SplitterKindEnum.INDIV_FILES", "1")); (HSplit ROUND_ROBIN_PLAIN, ("SplitterKindEnum.ROUND_ROBIN_PLAIN", "2"));
   (HSplit ROUND_ROBIN_UNWRAP_FLAG, ("SplitterKindEnum.ROUND_ROBIN_UNWRAP_FLAG", "3")); (HSplit CONSEC_CHUNKS, ("SplitterKindEnum.CONSEC_CHUNKS", "4"))].

Definition number_text (v : Z) : string := NilZero.string_of_int (Z.to_int v).
Definition commas (l : list string) : string := String.concat ", " l.
Definition one_newline : string := String "010" "".
Definition attribute_line (name text : string) : string := String "009" (" " +++ name +++ ": " +++ text +++ one_newline).

(** ** What is printed for a value; [true]: as an element of a list or a value of a dict *)
Inductive prints (address : loc -> string) (h : heap) : bool -> hval -> string -> Prop :=
| prints_none q : prints address h q HNone "None"
| prints_int q v : prints address h q (HInt v) (number_text v)
| prints_str s : prints address h false (HStr s) s
| prints_quoted s : prints address h true (HStr s) (repr_str s)
| prints_member v name n : In (v, (name, n)) members -> prints address h false v name
| prints_member_quoted v name n : In (v, (name, n)) members -> prints address h true v ("<" +++ name +++ ": " +++ n +++ ">")
| prints_list q a vs ts : nth_error h a = Some (OList vs) -> Forall2 (prints address h true) vs ts ->
    prints address h q (HRef a) ("[" +++ commas ts +++ "]")
| prints_dict q a es ts : nth_error h a = Some (ODict es) ->
    Forall2 (fun e t => exists u, prints address h true (snd e) u /\ t = number_text (fst e) +++ ": " +++ u) es ts ->
    prints address h q (HRef a) ("{" +++ commas ts +++ "}")
| prints_bare q a c full : nth_error h a = Some (OInst c []) -> In (c, true, full) classes ->
    prints address h q (HRef a) ("<class '" +++ full +++ "'>" +++ one_newline)
| prints_object q a c full at_ attrs ts : nth_error h a = Some (OInst c (at_ :: attrs)) -> In (c, true, full) classes ->
    Forall2 (fun e t => exists u, prints address h false (snd e) u /\ t = attribute_line (fst e) u) (at_ :: attrs) ts ->
    prints address h q (HRef a) ("<class '" +++ full +++ "'>: " +++ one_newline +++ String.concat "" ts)
| prints_address q a c full attrs : nth_error h a = Some (OInst c attrs) -> In (c, false, full) classes ->
    prints address h q (HRef a) ("<" +++ full +++ " object at " +++ address a +++ ">").

(** Only instances of the classes above are reached. *)
Definition known (h : heap) (v : hval) : Prop :=
  forall l c attrs, reaches h v l -> nth_error h l = Some (OInst c attrs) -> exists b full, In (c, b, full) classes.
(** An object is reached whose class has no text of its own. *)
Definition reaches_hidden (h : heap) (v : hval) : Prop :=
  exists l c attrs full, reaches h v l /\ nth_error h l = Some (OInst c attrs) /\ In (c, false, full) classes.
(** Different objects are in different places, whose numbers contain no angle bracket. *)
Definition places (address : loc -> string) (h : heap) : Prop :=
  (forall a b, a < length h -> b < length h -> address a = address b -> a = b) /\
  (forall a, a < length h -> SpecShlex.all_chars (fun c => c <> ">"%char) (address a)).

(** Objects that are equal also in the order of the keys and attributes *)
Inductive alike (h : heap) : hval -> hval -> Prop :=
| alike_value v : alike h v v
| alike_list a b l l' : nth_error h a = Some (OList l) -> nth_error h b = Some (OList l') -> Forall2 (alike h) l l' ->
    alike h (HRef a) (HRef b)
| alike_dict a b l l' : nth_error h a = Some (ODict l) -> nth_error h b = Some (ODict l') ->
    Forall2 (fun e e' => fst e = fst e' /\ alike h (snd e) (snd e')) l l' -> alike h (HRef a) (HRef b)
| alike_instance a b c l l' full : nth_error h a = Some (OInst c l) -> nth_error h b = Some (OInst c l') -> In (c, true, full) classes ->
    Forall2 (fun e e' => fst e = fst e' /\ alike h (snd e) (snd e')) l l' -> alike h (HRef a) (HRef b).

(** ** Invocations *)
(** The attributes are in the order in which the constructors set them
    (CommandInvocationWithIOVars.py:25-30, Aggregator.py:25-26; the others as in SpecHeapEq.v). *)
Definition invocation_attributes : list string :=
  ["cmd_name"; "flag_option_list"; "operand_list"; "implicit_use_of_streaming_input"; "implicit_use_of_streaming_output"; "access_map"].
Definition set_in_order (h : heap) : Prop :=
  forall cls attrs, In (OInst cls attrs) h ->
    (forall names, attributes cls = Some names -> map fst attrs = names) /\
    (cls = "Aggregator" -> map fst attrs = "kind" :: invocation_attributes).
(** The kind, if it is an aggregator *)
Definition has_kind (h : heap) (x : hval) (cls : string) (k : option agg_kind) : Prop :=
  class_is h x cls /\
  match k with
  | Some k => cls = "Aggregator" /\ attr h x cls "kind" = Some (HKind k)
  | None => In cls ["CommandInvocationWithIOVars"; "Mapper"]
  end.
(** The entries of the access map in their order *)
Definition access_entries (h : heap) (x : hval) (cls : string) (es : list (Z * access)) : Prop :=
  exists am vs, attr h x cls "access_map" = Some (HRef am) /\ nth_error h am = Some (ODict vs) /\
    Forall2 (fun e e' => fst e = fst e' /\ view_access h (snd e) = Some (snd e')) vs es.
(** All strings are printed on one line. *)
Definition val_one_line (p : pyval) : Prop :=
  match p with
  | PArg s => one_line s
  | PRes r => match res_el r with FileName n => one_line n | StdDescriptor _ => True end
  | _ => True
  end.
Definition flag_one_line (f : flag_el) : Prop :=
  match f with FFlag n => one_line n | FOptIO n p | FOptVar n p => one_line n /\ val_one_line p end.
Definition civ_one_line (c : civ) : Prop :=
  one_line (v_cmd c) /\ Forall flag_one_line (v_flags c) /\ Forall val_one_line (v_ops c) /\ val_one_line (v_in c) /\ val_one_line (v_out c).
