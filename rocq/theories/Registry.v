(** * The registry of generators
    annotation_generation/AnnotationGeneration.py and config/definitions.py *)
Require Import Verif.PyBase Verif.JsonData Verif.Parser Verif.IOInfo Verif.IOGen Verif.ParaTypes Verif.ParaGen.

(** ** Modules
    What importing a module does.  [Present] lists what it defines.  [Broken] is a file whose
    own imports fail: Python raises the same exception as for a missing file. *)
Inductive module_state (cls : Type) : Type :=
| Absent
| Broken
| Failing (e : exn)
| Present (names : dict cls).
Arguments Absent {cls}. Arguments Broken {cls}. Arguments Failing {cls} e. Arguments Present {cls} names.
(** The modules by their full names *)
Definition package (cls : Type) : Type := string -> module_state cls.

(** Exceptions of the loop; [ModuleNotFoundError] is a subclass of [ImportError]. *)
Inductive import_exn : Type := ModuleNotFoundError | ImportError | SyntaxError | FromModule (e : exn).
Inductive imported (A : Type) : Type := Imported (a : A) | ImportFails (e : import_exn).
Arguments Imported {A} a. Arguments ImportFails {A} e.

(** Characters of identifiers.  Simplification: Python allows letters beyond ASCII. *)
Definition name_char (a : ascii) : bool :=
  let n := nat_of_ascii a in
  (Nat.leb 65 n && Nat.leb n 90) || (Nat.leb 97 n && Nat.leb n 122) || (Nat.leb 48 n && Nat.leb n 57) || Nat.eqb n 95.
Definition name_chars (s : string) : bool := forallb name_char (list_ascii_of_string s).

(** AnnotationGeneration.py:11, config/definitions.py:9 *)
Definition ANNOTATION_GENERATORS : string := "pash_annotations.annotation_generation.annotation_generators".
Definition config_ANNOTATION_GENERATORS : string := "annotation_generation.annotation_generators".
(** AnnotationGeneration.py:46, 52, config/definitions.py:50, 61 *)
Definition IO_PREFIX : string := "InputOutputInfoGenerator".
Definition PARA_PREFIX : string := "ParallelizabilityInfoGenerator".
(** AnnotationGeneration.py:47-56; also config/definitions.py:51-55, 62-66 with the other
    package.  The values of a dict whose keys are distinct. *)
Definition file_module_names (where_ prefix : string) (table : dict string) : list (string * string) :=
  map (fun e => (where_ +++ "." +++ prefix +++ snd e, prefix +++ snd e)) table.

(** The names in the module AnnotationGeneration when the loop starts or defined after it.
    [getattr] finds them, too. *)
Definition base_names : list string :=
  ["__name__"; "__doc__"; "__package__"; "__loader__"; "__spec__"; "__file__"; "__cached__"; "__builtins__"; "__dict__"; "__class__";
   "os"; "sys"; "Optional"; "CommandInvocationInitial"; "InputOutputInfo"; "ParallelizabilityInfo"; "ROOT_DIR"; "ANNOTATION_GENERATORS";
   "DICT_CMD_NAME_TO_REPRESENTATION_IN_MODULE_NAMES"; "INPUTOUTPUT_INFO_FILENAME_MODULE_PREFIX"; "inputoutput_info_generator_prefix_abs";
   "inputoutput_info_generator_file_module_names"; "PARALLELIZABILITY_INFO_FILENAME_MODULE_PREFIX"; "parallelizability_info_generator_prefix_abs";
   "parallelizability_info_generator_file_and_module_names"; "FILENAME_MODULE_PAIR"; "FILENAME"; "MODULE"; "import_str";
   "get_input_output_info_from_cmd_invocation"; "get_parallelizability_info_from_cmd_invocation"; "str_to_class"].

Section Registry.
  Context {cls : Type}.
  (** [exec("from FILENAME import MODULE")], AnnotationGeneration.py:61-63.  Simplification:
      names with other characters than those of identifiers are syntax errors. *)
  Definition exec_import (p : package cls) (g : dict cls) (fm : string * string) : imported (dict cls) :=
    if name_chars (snd fm) then
      match p (fst fm) with
      | Absent | Broken => ImportFails ModuleNotFoundError
      | Failing e => ImportFails (FromModule e)
      | Present names => match dict_find names (snd fm) with
                         | Some c => Imported (dict_set g (snd fm) c)
                         | None => ImportFails ImportError
                         end
      end
    else ImportFails SyntaxError.
  (** AnnotationGeneration.py:58-66 *)
  Fixpoint import_loop (p : package cls) (pairs : list (string * string)) (g : dict cls) : imported (dict cls) :=
    match pairs with
    | [] => Imported g
    | fm :: pairs' =>
        match exec_import p g fm with
        | Imported g' => import_loop p pairs' g'
        | ImportFails ModuleNotFoundError => import_loop p pairs' g
        | ImportFails e => ImportFails e
        end
    end.
  Definition import_generators (p : package cls) (table : dict string) : imported (dict cls) :=
    import_loop p (file_module_names ANNOTATION_GENERATORS IO_PREFIX table ++ file_module_names ANNOTATION_GENERATORS PARA_PREFIX table) [].

  (** AnnotationGeneration.py:97-98: [None] in [option] is an AttributeError, [Some None] a name
      that is not a generator *)
  Definition str_to_class (g : dict cls) (name : string) : option (option cls) :=
    match dict_find g name with
    | Some c => Some (Some c)
    | None => if mem name base_names then Some None else None
    end.
  (** [str(DICT.get(cmd_name))], AnnotationGeneration.py:71, 84 *)
  Definition repr_in (table : dict string) (name : string) : string := dict_get_default table name "None".
  (** AnnotationGeneration.py:69-80, 82-94; [run] makes the object, generates and returns the
      information.  Calling something that is not a generator fails or gives an object without
      the methods. *)
  Definition info_from {info : Type} (run : cls -> invocation -> result info) (prefix : string) (g : dict cls) (table : dict string) (inv : invocation) : option info :=
    match str_to_class g (prefix +++ repr_in table (cmd_name inv)) with
    | Some (Some c) => except_none (run c inv)
    | Some None | None => None
    end.
End Registry.

(** ** The modules of the repository
    One class per file, named as the file; all files import. *)
Inductive generator_class : Type := IOClass (g : generator) | ParaClass (g : pgen).
Definition repository_modules : package generator_class := fun name =>
  match find (fun e => String.eqb name (ANNOTATION_GENERATORS +++ "." +++ IO_PREFIX +++ fst e)) io_generator_classes with
  | Some (r, g) => Present [(IO_PREFIX +++ r, IOClass g)]
  | None =>
      match find (fun e => String.eqb name (ANNOTATION_GENERATORS +++ "." +++ PARA_PREFIX +++ fst e)) para_generator_classes with
      | Some (r, g) => Present [(PARA_PREFIX +++ r, ParaClass g)]
      | None => Absent
      end
  end.
(** InputOutputInfoGenerator_Interface.py:20-42 and ParallelizabilityInfoGenerator_Interface.py:16-27
    around the [generate_info] of the class.  A class of the other kind is never called. *)
Definition run_io (dir : data_dir) (c : generator_class) (inv : invocation) : result io_info :=
  match c with
  | IOClass g => let! i := init_io_info dir inv in g inv i
  | ParaClass _ => Raise GenericException
  end.
Definition run_para (dir : data_dir) (c : generator_class) (inv : invocation) : result para_info :=
  match c with
  | ParaClass g => g dir inv new_para_info
  | IOClass _ => Raise GenericException
  end.

(** ** config/definitions.py *)
(** config/definitions.py:15-44 *)
Definition config_table : dict string :=
  [("grep", "Grep"); ("mv", "Mv"); ("tr", "Tr"); ("cat", "Cat"); ("head", "Head"); ("tail", "Tail"); ("cut", "Cut"); ("uniq", "Uniq");
   ("comm", "Comm"); ("sort", "Sort"); ("sed", "Sed"); ("col", "Col"); ("xargs", "Xargs"); ("seq", "Seq"); ("test_one", "TestOne");
   ("test_two", "TestTwo"); ("alt_bigrams_aux", "AltBigramsAux"); ("alt_bigram_aux_reduce", "AltBigramAuxReduce"); ("mkfifo", "Mkfifo");
   ("diff", "Diff"); ("rm", "Rm"); ("tee", "Tee"); ("custom_sort", "CustomSort"); ("custom_tr", "CustomTr"); ("set_diff", "SetDiff");
   ("bigrams_aux", "BigramsAux"); ("bigram_aux_map", "BigramAuxMap"); ("bigram_aux_reduce", "BigramAuxReduce")].
(** The names in the module definitions; it imports os and sys only. *)
Definition config_names : list string :=
  ["__name__"; "__doc__"; "__package__"; "__loader__"; "__spec__"; "__file__"; "__cached__"; "__builtins__"; "__dict__"; "__class__";
   "os"; "sys"; "INDICATORS_FOR_FILENAMES"; "ROOT_DIR"; "ANNOTATION_GENERATORS"; "PARALLELIZABILITY_INFO_GENERATOR_PREFIX";
   "DICT_CMD_NAME_TO_REPRESENTATION_IN_MODULE_NAMES"; "str_to_class"; "INPUTOUTPUT_INFO_FILENAME_MODULE_PREFIX";
   "inputoutput_info_generator_prefix_abs"; "get_inputoutput_info_generator_file_module_names";
   "get_dict_cmd_name_inputoutput_info_generator_module"; "PARALLELIZABILITY_INFO_FILENAME_MODULE_PREFIX";
   "parallelizability_info_generator_prefix_abs"; "get_parallelizability_info_generator_file_and_module_names";
   "get_dict_cmd_name_parallelizability_info_generator_module"].
(** config/definitions.py:57-59, 68-70: the objects are given by their names; [None] is an AttributeError *)
Fixpoint module_dict (prefix : string) (table : dict string) : option (dict string) :=
  match table with
  | [] => Some []
  | (cmd, r) :: table' =>
      if mem (prefix +++ r) config_names then
        match module_dict prefix table' with Some d => Some ((cmd, prefix +++ r) :: d) | None => None end
      else None
  end.
