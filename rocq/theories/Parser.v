(** * Model of pash_annotations/parser/parser.py *)
Require Import Verif.PyBase Verif.Shlex Verif.JsonData.

(** datatypes/BasicDatatypes.py:69-94: [Flag] and [Option]. *)
Inductive flag_option : Type :=
| Flag (name : string)
| Option_ (name arg : string).

(** [FlagOption.get_name], BasicDatatypes.py:74-75, 84-85 *)
Definition fo_name (fo : flag_option) : string :=
  match fo with Flag n => n | Option_ n _ => n end.

(** datatypes/CommandInvocationInitial.py: name, flags and options, operands.
    An [Operand] is represented by its [name]. *)
Record invocation : Type := mkInv
  { cmd_name : string; flag_option_list : list flag_option; operand_list : list string }.

(** Iterating over an entry of ["flag"]: the elements of a list, the characters of
    a string. *)
Definition flag_entry_elements (e : flag_entry) : list string :=
  match e with FEList l => l | FEStr s => chars s end.

(** parser.py:70-71, 82-87 *)
Definition get_set_of_all_flags (j : json_data) : list string :=
  flat_map flag_entry_elements (j_flag j).

(** parser.py:74-79 *)
Definition get_set_of_all_options (j : json_data) : list string :=
  flat_map oe_names (j_option j).

(** The inner loop of parser.py:90-102: every spelling but the first is mapped to
    the first. *)
Definition add_synonyms (d : dict string) (spellings : list string) : dict string :=
  match spellings with
  | [] => d
  | primary :: others => fold_left (fun d s => dict_set d s primary) others d
  end.

(** parser.py:90-95 *)
Definition get_dict_flag_to_primary_repr (j : json_data) : dict string :=
  fold_left (fun d e => add_synonyms d (flag_entry_elements e)) (j_flag j) [].

(** parser.py:97-102 *)
Definition get_dict_option_to_primary_repr (j : json_data) : dict string :=
  fold_left (fun d e => add_synonyms d (oe_names e)) (j_option j) [].

(** parser.py:118-121.  The word is not empty when this is called. *)
Definition are_all_individually_flags (w : string) (flags : list string) : bool :=
  match w with
  | EmptyString => false
  | String c rest =>
      if negb (Ascii.eqb c "-") || String.eqb w "-" then false
      else forallb (fun ch => mem ("-" +++ ch) flags) (chars rest)
  end.

(** parser.py:41-43: the flags a bundle denotes *)
Definition bundle_flags (w : string) : list flag_option :=
  match w with
  | EmptyString => []
  | String _ rest => map (fun ch => Flag ("-" +++ ch)) (chars rest)
  end.

(** parser.py:25-47: the [while] loop, as recursion on [parsed_elements_list[i:]].
    Returns the flags and options and the remaining words (the operands). *)
Fixpoint parse_loop (flags : list string) (flag_dict : dict string)
    (options : list string) (option_dict : dict string) (words : list string)
  : list flag_option * list string :=
  match words with
  | [] => ([], [])
  | w :: rest =>
      if String.eqb w "" then ([], words)
      else if mem w flags then
        let '(fos, ops) := parse_loop flags flag_dict options option_dict rest in
        (Flag (dict_get_default flag_dict w w) :: fos, ops)
      else
        let otherwise :=
          if are_all_individually_flags w flags then
            let '(fos, ops) := parse_loop flags flag_dict options option_dict rest in
            (bundle_flags w ++ fos, ops)
          else ([], words) in
        if mem w options then
          match rest with
          | [] => otherwise
          | arg :: rest' =>
              let '(fos, ops) := parse_loop flags flag_dict options option_dict rest' in
              (Option_ (dict_get_default option_dict w w) arg :: fos, ops)
          end
        else otherwise
  end.

(** parser.py:17-54, after the data file is read *)
Definition parse_words (j : json_data) (words : list string) : list flag_option * list string :=
  parse_loop (get_set_of_all_flags j) (get_dict_flag_to_primary_repr j)
             (get_set_of_all_options j) (get_dict_option_to_primary_repr j) words.

(** parser.py:9-56 *)
Definition parse (dir : data_dir) (command : string) : result invocation :=
  let! parsed_elements_list := shlex_split command in
  match parsed_elements_list with
  | [] => Raise IndexError
  | name :: words =>
      let! j := get_json_data dir name in
      let '(fos, ops) := parse_words j words in
      Ok (mkInv name fos ops)
  end.
