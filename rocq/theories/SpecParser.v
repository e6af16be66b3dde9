(** * Specification of command-line parsing

    Reads only the JSON data of the command, not the sets and dictionaries the
    parser builds from it. *)
Require Import Verif.PyBase Verif.JsonData Verif.Parser Verif.SpecShlex.

(** The spellings of a flag entry.  A bare string counts as the sequence of its
    characters. *)
Definition spellings (e : flag_entry) : list string :=
  match e with
  | FEList l => l
  | FEStr s => map (fun c => String c "") (list_ascii_of_string s)
  end.

Definition flag_declared (j : json_data) (w : string) : Prop :=
  exists e, In e (j_flag j) /\ In w (spellings e).
Definition option_declared (j : json_data) (w : string) : Prop :=
  exists e, In e (j_option j) /\ In w (oe_names e).

(** [canonical groups w p]: [p] is the spelling under which [w] is reported: the
    first spelling of the last group that lists [w] as a further spelling, or [w]
    itself if there is no such group. *)
Definition further (l : list string) (w : string) : Prop :=
  match l with [] => False | _ :: others => In w others end.
Definition canonical (groups : list (list string)) (w p : string) : Prop :=
  (exists pre others post, groups = pre ++ (p :: others) :: post /\ In w others /\
     forall l, In l post -> ~ further l w)
  \/ ((forall l, In l groups -> ~ further l w) /\ p = w).
Definition flag_canonical (j : json_data) : string -> string -> Prop :=
  canonical (map spellings (j_flag j)).
Definition option_canonical (j : json_data) : string -> string -> Prop :=
  canonical (map oe_names (j_option j)).

(** The one-letter flag [-c]. *)
Definition letter_flag (c : ascii) : string := String "-" (String c "").

(** [bundle j w cs]: [w] is a dash followed by the letters [cs], at least one, all
    of them declared one-letter flags. *)
Definition bundle (j : json_data) (w : string) (cs : list ascii) : Prop :=
  cs <> [] /\ w = String "-" (string_of_list_ascii cs) /\
  forall c, In c cs -> flag_declared j (letter_flag c).

(** One group at the front of the word list: what is read, and what remains. *)
Inductive group (j : json_data) : list string -> list flag_option -> list string -> Prop :=
| group_flag w p rest :
    w <> "" -> flag_declared j w -> flag_canonical j w p ->
    group j (w :: rest) [Flag p] rest
| group_option w p arg rest :
    w <> "" -> ~ flag_declared j w -> option_declared j w -> option_canonical j w p ->
    group j (w :: arg :: rest) [Option_ p arg] rest
| group_bundle w cs rest :
    ~ flag_declared j w -> (option_declared j w -> rest = []) -> bundle j w cs ->
    group j (w :: rest) (map (fun c => Flag (letter_flag c)) cs) rest.

(** Any number of groups. *)
Inductive groups (j : json_data) : list string -> list flag_option -> list string -> Prop :=
| groups_nil ws : groups j ws [] ws
| groups_cons ws fos ws' fos' ws'' :
    group j ws fos ws' -> groups j ws' fos' ws'' -> groups j ws (fos ++ fos') ws''.

(** The first word, if any, starts the operands. *)
Definition operands_start (j : json_data) (ws : list string) : Prop :=
  match ws with
  | [] => True
  | w :: rest =>
      w = "" \/
      (~ flag_declared j w /\ (option_declared j w -> rest = []) /\ forall cs, ~ bundle j w cs)
  end.

(** [segments j ws fos ops]: the words [ws] are groups denoting [fos] followed by
    the operands [ops]. *)
Definition segments (j : json_data) (ws : list string) (fos : list flag_option) (ops : list string) : Prop :=
  groups j ws fos ops /\ operands_start j ops.

(** Loading the data of a command. *)
Definition default_file : string := "_default_data_for_commands.json".
Definition loads (dir : data_dir) (name : string) (j : json_data) : Prop :=
  dir (name +++ ".json") = FFound j \/
  (dir (name +++ ".json") = FNotFound /\ dir default_file = FFound j).
Definition load_fails (dir : data_dir) (name : string) (e : exn) : Prop :=
  dir (name +++ ".json") = FError e \/
  (dir (name +++ ".json") = FNotFound /\
   (dir default_file = FError e \/ (dir default_file = FNotFound /\ e = GenericException))).

(** Writing an invocation back as words. *)
Definition fo_words (fo : flag_option) : list string :=
  match fo with Flag n => [n] | Option_ n a => [n; a] end.
Definition inv_words (inv : invocation) : list string :=
  cmd_name inv :: flat_map fo_words (flag_option_list inv) ++ operand_list inv.

(** Data in which every flag entry is a list, no spelling is empty, and no spelling
    is declared twice. *)
Definition well_formed (j : json_data) : Prop :=
  (forall e, In e (j_flag j) -> exists l, e = FEList l /\ l <> []) /\
  (forall e, In e (j_option j) -> oe_names e <> []) /\
  NoDup (flat_map spellings (j_flag j) ++ flat_map oe_names (j_option j)) /\
  (forall w, flag_declared j w \/ option_declared j w -> w <> "").

(** Flag entries are lists of non-empty spellings, each declared once. *)
Definition flags_unambiguous (j : json_data) : Prop :=
  (forall e, In e (j_flag j) -> exists l, e = FEList l) /\
  NoDup (flat_map spellings (j_flag j)) /\ ~ flag_declared j "".
(** Option entries have non-empty spellings, each declared once. *)
Definition options_unambiguous (j : json_data) : Prop :=
  NoDup (flat_map oe_names (j_option j)) /\ ~ option_declared j "".

(** The data as written: a bare string in the flag list is meant as one flag. *)
Definition written_flag (j : json_data) (w p : string) : Prop :=
  (exists others, In (FEList (p :: others)) (j_flag j) /\ In w (p :: others)) \/
  (In (FEStr w) (j_flag j) /\ p = w).
Definition written_option (j : json_data) (w p : string) : Prop :=
  exists e others, In e (j_option j) /\ oe_names e = p :: others /\ In w (p :: others).

(** All names of an invocation are first spellings, and no option name is a flag. *)
Definition names_canonical (j : json_data) (fos : list flag_option) : Prop :=
  forall fo, In fo fos ->
    match fo with
    | Flag n => n <> "" /\ flag_canonical j n n
    | Option_ n _ => n <> "" /\ option_canonical j n n /\ ~ flag_declared j n
    end.
