(** * Model of the argument parser of pash_annotations/annotation_cli.py:13-23
    [argparse.ArgumentParser] of CPython 3.8 to 3.11 (the package requires 3.8 or later), as far as this
    parser needs it: three options, no positionals, one argument each but for help, abbreviations allowed.
    The texts of the help and of the error messages are not modelled, only the exit status.
    Words are strings of 8-bit characters; digits are the ASCII digits. *)
Require Import Verif.PyBase Verif.JsonData Verif.Cli.

(** [SystemExit] as a value *)
Inductive outcome (A : Type) : Type :=
| Done (a : A)
| Exit (status : nat).
Arguments Done {A} a.
Arguments Exit {A} status.
Definition obind {A B} (x : outcome A) (f : A -> outcome B) : outcome B :=
  match x with Done a => f a | Exit n => Exit n end.

(** annotation_cli.py:13-20: [-h] and [--help] come from [ArgumentParser()] *)
Inductive action : Type := Help | CommandInvocation | SaveTo.
Definition option_string_actions : list (string * action) :=
  [("-h", Help); ("--help", Help); ("--command_invocation", CommandInvocation); ("--save_to", SaveTo)].

(** [s.split('=', 1)] if the sign occurs *)
Fixpoint split_equals (s : string) : option (string * string) :=
  match s with
  | EmptyString => None
  | String c s' =>
      if Ascii.eqb c "=" then Some (EmptyString, s')
      else match split_equals s' with Some (a, b) => Some (String c a, b) | None => None end
  end.
Fixpoint contains_blank (s : string) : bool :=
  match s with EmptyString => false | String c s' => Ascii.eqb c " " || contains_blank s' end.

(** [_negative_number_matcher]: [^-\d+$|^-\d*\.\d+$], where [$] also matches before a final newline *)
Definition is_digit (c : ascii) : bool := Nat.leb 48 (nat_of_ascii c) && Nat.leb (nat_of_ascii c) 57.
Fixpoint skip_digits (s : string) : nat * string :=
  match s with
  | EmptyString => (0, s)
  | String c s' => if is_digit c then let '(n, r) := skip_digits s' in (S n, r) else (0, s)
  end.
Definition at_end (s : string) : bool := String.eqb s "" || String.eqb s "
".
Definition negative_number (s : string) : bool :=
  match s with
  | String "-" s' =>
      let '(n, r) := skip_digits s' in
      (Nat.leb 1 n && at_end r) ||
      match r with
      | String "." r' => let '(m, r'') := skip_digits r' in Nat.leb 1 m && at_end r''
      | _ => false
      end
  | _ => false
  end.

(** An option with its name and the argument given in the same word; [None]: an unknown option *)
Definition option_tuple : Type := option action * string * option string.

(** [_get_option_tuples] *)
Definition get_option_tuples (option_string : string) : list option_tuple :=
  match option_string with
  | String "-" (String "-" _) =>
      let '(option_prefix, explicit_arg) :=
        match split_equals option_string with Some (a, b) => (a, Some b) | None => (option_string, None) end in
      flat_map (fun '(o, a) => if String.prefix option_prefix o then [(Some a, o, explicit_arg)] else []) option_string_actions
  | String "-" (String c short_explicit_arg) =>
      flat_map (fun '(o, a) =>
        if String.eqb o (String "-" (one_char c)) then [(Some a, o, Some short_explicit_arg)]
        else if String.prefix option_string o then [(Some a, o, None)] else []) option_string_actions
  | _ => []
  end.

(** [_parse_optional]: [None] for a word that is no option; more than one interpretation is an error *)
Definition parse_optional (arg_string : string) : outcome (option option_tuple) :=
  match arg_string with
  | EmptyString => Done None
  | String c s =>
      if negb (Ascii.eqb c "-") then Done None
      else match dict_find option_string_actions arg_string with
      | Some a => Done (Some (Some a, arg_string, None))
      | None =>
      if String.eqb s "" then Done None
      else match match split_equals arg_string with
                 | Some (o, e) => match dict_find option_string_actions o with Some a => Some (Some a, o, Some e) | None => None end
                 | None => None
                 end with
      | Some t => Done (Some t)
      | None =>
      match get_option_tuples arg_string with
      | _ :: _ :: _ => Exit 2
      | [t] => Done (Some t)
      | [] =>
          if negative_number arg_string then Done None
          else if contains_blank arg_string then Done None
          else Done (Some (None, arg_string, None))
      end end end
  end.

(** The first loop of [_parse_known_args]: every word gets its kind. *)
Inductive kind : Type :=
| KArg
| KDash
| KOption (t : option_tuple).
Fixpoint classify (arg_strings : list string) : outcome (list (string * kind)) :=
  match arg_strings with
  | [] => Done []
  | w :: ws =>
      if String.eqb w "--" then Done ((w, KDash) :: map (fun w => (w, KArg)) ws)
      else obind (parse_optional w) (fun t =>
             obind (classify ws) (fun l =>
               Done ((w, match t with None => KArg | Some t => KOption t end) :: l)))
  end.

(** [_get_values]: the first [--] is removed, even from the one argument that was matched; then the value is an empty list. *)
Inductive value : Type :=
| Text (s : string)
| NoText.
Definition get_value (s : string) : value := if String.eqb s "--" then NoText else Text s.

Record namespace : Type := mkNamespace { ns_command : option value; ns_save : option value; ns_extras : list string }.
(** [take_action] for the two options that store *)
Definition store (a : action) (s : string) (ns : namespace) : namespace :=
  match a with
  | CommandInvocation => mkNamespace (Some (get_value s)) (ns_save ns) (ns_extras ns)
  | SaveTo => mkNamespace (ns_command ns) (Some (get_value s)) (ns_extras ns)
  | Help => ns
  end.
Definition extra (w : string) (ns : namespace) : namespace := mkNamespace (ns_command ns) (ns_save ns) (ns_extras ns ++ [w]).

(** [-h] followed by characters in the same word: each must be the name of a further short option without
    argument, and [h] is the only one. (Before 3.9 an empty argument raises IndexError.) *)
Fixpoint help_bundle (explicit_arg : string) : nat :=
  match explicit_arg with
  | EmptyString => 0
  | String c s => if Ascii.eqb c "h" then help_bundle s else 2
  end.

(** [consume_optional] and the second loop of [_parse_known_args] *)
Fixpoint consume (l : list (string * kind)) (ns : namespace) : outcome namespace :=
  match l with
  | [] => Done ns
  | (w, KArg) :: l' | (w, KDash) :: l' => consume l' (extra w ns)
  | (w, KOption (None, _, _)) :: l' => consume l' (extra w ns)
  | (_, KOption (Some Help, o, None)) :: _ => Exit 0
  | (_, KOption (Some Help, o, Some e)) :: _ =>
      if String.eqb o "-h" && negb (String.eqb e "") then Exit (help_bundle e) else Exit 2
  | (_, KOption (Some a, _, Some e)) :: l' => consume l' (store a e ns)
  | (_, KOption (Some a, _, None)) :: l' =>
      match l' with
      | (w, KArg) :: l'' => consume l'' (store a w ns)
      | _ => Exit 2
      end
  end.

(** [parse_args] (annotation_cli.py:23): the command is required, nothing may be left over *)
Definition parse_args (argv : list string) : outcome (value * option value) :=
  obind (classify argv) (fun l =>
    obind (consume l (mkNamespace None None [])) (fun ns =>
      match ns_command ns with
      | None => Exit 2
      | Some c => match ns_extras ns with [] => Done (c, ns_save ns) | _ :: _ => Exit 2 end
      end)).

(** annotation_cli.py as a whole: an exit status, or how the script ends.
    A value that is a list cannot be appended to a string (lines 38 and 46); the message about the
    file is printed before the command is looked at. *)
Inductive ended : Type :=
| Exited (status : nat)
| Ended (r : result unit).
Definition main (render : report -> string) (dir : data_dir) (script_path : string) (argv : list string) (w : world) : world * ended :=
  match parse_args argv with
  | Exit n => (w, Exited n)
  | Done (_, Some NoText) => (w, Ended (Raise TypeError))
  | Done (NoText, None) => (w, Ended (Raise TypeError))
  | Done (NoText, Some (Text f)) =>
      match can_be_read (files w) (script_prefix script_path +++ f) with
      | Ok b => (if b then w else print w exists_message, Ended (Raise TypeError))
      | Raise e => (w, Ended (Raise e))
      end
  | Done (Text c, None) => let '(w', r) := cli render dir script_path None c w in (w', Ended r)
  | Done (Text c, Some (Text f)) => let '(w', r) := cli render dir script_path (Some f) c w in (w', Ended r)
  end.
