(** * Command data files (pash_annotations/parser/command_flag_option_info/data/)

    The decoded JSON of one file.  Only the keys ["flag"] and ["option"] are read
    by the code.  Simplification: an entry of ["option"] is split into its
    spellings (all elements but the last) and its last element; entries with no
    element at all, or with a list among the spellings, are not representable
    (no shipped file has one). *)
Require Import Verif.PyBase.

(** An entry of ["flag"]: normally a list of spellings; uniq.json also has bare
    strings, over which the Python code iterates character by character. *)
Inductive flag_entry : Type :=
| FEList (l : list string)
| FEStr (s : string).

(** The last element of an entry of ["option"]: a type name or [[type, access]]. *)
Inductive option_arg : Type :=
| OAStr (s : string)
| OAList (l : list string).

Record option_entry : Type := mkOE { oe_names : list string; oe_arg : option_arg }.

Record json_data : Type := mkJson { j_flag : list flag_entry; j_option : list option_entry }.

(** What reading a data file can do: pkgutil.get_data in
    pash_annotations/parser/util_parser.py:5-16. *)
Inductive file_result : Type :=
| FFound (j : json_data)
| FNotFound
| FError (e : exn).

(** The data directory, as a function of the file name. *)
Definition data_dir : Type := string -> file_result.

(** util_parser.py:5-16 *)
Definition get_json_data (dir : data_dir) (cmd_name : string) : result json_data :=
  match dir (cmd_name +++ ".json") with
  | FFound j => Ok j
  | FError e => Raise e
  | FNotFound =>
      match dir "_default_data_for_commands.json" with
      | FFound j => Ok j
      | FNotFound => Raise GenericException
      | FError e => Raise e
      end
  end.
