(** * What sed and xargs do
    Specification for C59 and C60, in the style of SpecSem.v. *)
Require Import Verif.PyBase Verif.JsonData Verif.Parser Verif.Access Verif.IOInfo Verif.IOVars
  Verif.Transformers Verif.ParaTypes Verif.ParaGen Verif.MapperAgg Verif.SpecLists Verif.SpecPara Verif.SpecVars Verif.SpecSem.

(** ** sed (GNU): a fragment of the script language
    Commands separated by semicolons, each with at most one address.  Substitutions are
    delimited by slashes and contain no escapes, brackets or semicolons. *)
Inductive sed_address : Type :=
| Always
| AtLine (n : nat)
| AtLast
| Matching (regex : string).
Inductive sed_command : Type :=
| Subst (regex replacement flags : string)   (* s/../../.. *)
| Print         (* p *)
| Delete        (* d *)
| Quit          (* q *)
| LineNumber    (* = *)
| Hold          (* h *)
| HoldAppend    (* H *)
| Get           (* g *)
| GetAppend     (* G *)
| Exchange.     (* x *)
Definition script : Type := list (sed_address * sed_command).

(** *** Reading scripts *)
(** The pieces between separators; always at least one *)
Fixpoint split_on (sep : ascii) (s : string) : list string :=
  match s with
  | "" => [""]
  | String a s' =>
      if Ascii.eqb a sep then "" :: split_on sep s'
      else match split_on sep s' with [] => [String a ""] | r :: rs => String a r :: rs end
  end.
Definition is_digit (a : ascii) : bool := Nat.leb 48 (nat_of_ascii a) && Nat.leb (nat_of_ascii a) 57.
Fixpoint take_digits (s : string) : string * string :=
  match s with
  | String a s' => if is_digit a then let '(d, r) := take_digits s' in (String a d, r) else ("", s)
  | "" => ("", "")
  end.
Fixpoint all_in (p : ascii -> bool) (s : string) : bool :=
  match s with "" => true | String a s' => p a && all_in p s' end.
(** Characters that stand for themselves as far as reading the script goes *)
Definition plain_char (a : ascii) : bool :=
  negb (existsb (Ascii.eqb a) ["/"; ";"; "\"; "["; "{"; "}"; newline]%char).
Definition plain_regex (s : string) : bool := negb (String.eqb s "") && all_in plain_char s.
Definition subst_flag (a : ascii) : bool := existsb (Ascii.eqb a) ["g"; "p"; "i"; "I"]%char || is_digit a.
(** Up to the slash that ends a regular expression *)
Fixpoint take_regex (s : string) : option (string * string) :=
  match s with
  | "" => None
  | String a s' =>
      if Ascii.eqb a "/" then Some ("", s')
      else match take_regex s' with Some (r, t) => Some (String a r, t) | None => None end
  end.
Definition read_address (s : string) : option (sed_address * string) :=
  match s with
  | "" => Some (Always, "")
  | String a s' =>
      if Ascii.eqb a "$" then Some (AtLast, s')
      else if Ascii.eqb a "/" then
        match take_regex s' with
        | Some (r, t) => if plain_regex r then Some (Matching r, t) else None
        | None => None
        end
      else if is_digit a then
        let '(d, r) := take_digits s in if Nat.eqb (number d) 0 then None else Some (AtLine (number d), r)
      else Some (Always, s)
  end.
Definition read_command (s : string) : option sed_command :=
  match s with
  | "p" => Some Print
  | "d" => Some Delete
  | "q" => Some Quit
  | "=" => Some LineNumber
  | "h" => Some Hold
  | "H" => Some HoldAppend
  | "g" => Some Get
  | "G" => Some GetAppend
  | "x" => Some Exchange
  | _ =>
      match split_on "/" s with
      | ["s"; r; t; f] => if plain_regex r && all_in plain_char t && all_in subst_flag f then Some (Subst r t f) else None
      | _ => None
      end
  end.
Definition read_one (s : string) : option (sed_address * sed_command) :=
  match read_address s with
  | Some (a, t) => match read_command t with Some k => Some (a, k) | None => None end
  | None => None
  end.
Fixpoint read_all (l : list string) : option script :=
  match l with
  | [] => Some []
  | s :: l' => match read_one s, read_all l' with Some x, Some r => Some (x :: r) | _, _ => None end
  end.
Definition read_script (s : string) : option script := read_all (split_on ";" s).

(** *** Running scripts
    [sed_subst]: the line after a substitution and whether anything was replaced. *)
Record sed_oracle : Type := mkSedOracle
  { sed_match : list wflag -> string -> string -> bool;
    sed_subst : list wflag -> string -> string -> string -> string -> string * bool;
    sed_number : nat -> string;
    sed_help : string }.
(** What is printed: a pattern space or a line number *)
Inductive printout : Type := Space (s : string) | Numeral (s : string).
Definition selected (o : sed_oracle) (fl : list wflag) (a : sed_address) (n : nat) (final : bool) (space : string) : bool :=
  match a with
  | Always => true
  | AtLine k => Nat.eqb n k
  | AtLast => final
  | Matching r => sed_match o fl r space
  end.
Definition sed_sep (fl : list wflag) : ascii := if given fl ["-z"] then nul else newline.
Definition autoprint (fl : list wflag) (space : string) : list printout := if given fl ["-n"] then [] else [Space space].
(** One cycle: what is printed, the hold space afterwards, and whether sed quits.
    [n]: number of the line; [final]: is it the last one *)
Fixpoint sed_cycle (o : sed_oracle) (fl : list wflag) (n : nat) (final : bool) (sc : script) (space hold : string)
    : list printout * string * bool :=
  match sc with
  | [] => (autoprint fl space, hold, false)
  | (a, k) :: sc' =>
      let continue_ := sed_cycle o fl n final sc' in
      let printing l r := match r with (l', h, q) => (l ++ l', h, q) end in
      if selected o fl a n final space then
        match k with
        | Subst r t f =>
            let '(space', replaced) := sed_subst o fl r t f space in
            printing (if replaced && has_char "p" f then [Space space'] else []) (continue_ space' hold)
        | Print => printing [Space space] (continue_ space hold)
        | Delete => ([], hold, false)
        | Quit => (autoprint fl space, hold, true)
        | LineNumber => printing [Numeral (sed_number o n)] (continue_ space hold)
        | Hold => continue_ space space
        | HoldAppend => continue_ space (hold +++ String (sed_sep fl) space)
        | Get => continue_ hold hold
        | GetAppend => continue_ (space +++ String (sed_sep fl) hold) hold
        | Exchange => continue_ hold space
        end
      else continue_ space hold
  end.
(** What is written: if the line that was read has no end of line then the last pattern space
    that is printed for it has none either.  Simplification: GNU sed prints an end after g and x,
    which SpecSem8.v has. *)
Fixpoint written (sep : ascii) (ended : bool) (l : list printout) : string :=
  match l with
  | [] => ""
  | Numeral s :: l' => s +++ String newline (written sep ended l')
  | [Space s] => if ended then s +++ String sep "" else s
  | Space s :: l' => s +++ String sep (written sep ended l')
  end.
Fixpoint sed_lines (o : sed_oracle) (fl : list wflag) (sc : script) (ended : bool) (n : nat) (hold : string) (l : list string) : string :=
  match l with
  | [] => ""
  | x :: l' =>
      let final := match l' with [] => true | _ => false end in
      match sed_cycle o fl n final sc x hold with
      | (out, hold', quit) =>
          written (sed_sep fl) (negb final || ended) out +++ (if quit then "" else sed_lines o fl sc ended (S n) hold' l')
      end
  end.
(** Does the last record of the text have an end *)
Fixpoint is_ended (sep : ascii) (s : string) : bool :=
  match s with "" => true | String a "" => Ascii.eqb a sep | String _ s' => is_ended sep s' end.
Definition sed_output (o : sed_oracle) (fl : list wflag) (sc : script) (input : string) : string :=
  if given fl ["--help"; "--version"] then sed_help o
  else sed_lines o fl sc (is_ended (sed_sep fl) input) 1 "" (records (sed_sep fl) input).
(** The parser names these flags and options; with -e and -f the script is somewhere else, with
    --in-place nothing is written to the output, with --debug and --posix more or other things. *)
Definition sed_names : list string :=
  ["-n"; "--debug"; "-e"; "-f"; "--follow-symlinks"; "--posix"; "-E"; "-r"; "-s"; "--sandbox"; "-u"; "-z"; "--help"; "--version";
   "--in-place"; "-l"; "--line-length"].
Definition is_sed (o : sed_oracle) (B : behaviour) : Prop :=
  forall seed fl text ops input sc, known sed_names fl ->
    given fl ["-e"; "-f"; "--in-place"; "--debug"; "--posix"] = false -> read_script text = Some sc ->
    B seed "sed" fl (WText text :: ops) [input] = sed_output o fl sc input.

(** Scripts that treat every line by itself: no line numbers, no quitting, and nothing is
    carried from one line to the next in the hold space. *)
Definition sets_hold (k : sed_command) : Prop := In k [Hold; HoldAppend; Exchange].
Definition uses_hold (k : sed_command) : Prop := In k [Get; GetAppend; Exchange].
Definition line_local (sc : script) : Prop :=
  (forall a k, In (a, k) sc -> (forall n, a <> AtLine n) /\ a <> AtLast /\ k <> Quit /\ k <> LineNumber) /\
  ((forall a k, In (a, k) sc -> ~ sets_hold k) \/ (forall a k, In (a, k) sc -> ~ uses_hold k)).

(** ** xargs (GNU): input without quotes and backslashes; the only flags are -n, -r and -t *)
Definition is_blank (a : ascii) : bool := existsb (Ascii.eqb a) [" "%char; ascii_of_nat 9; newline].
(** The items of the input: maximal sequences of characters that are not blank *)
Fixpoint items_from (item : string) (s : string) : list string :=
  match s with
  | "" => if String.eqb item "" then [] else [item]
  | String a s' =>
      if is_blank a then (if String.eqb item "" then [] else [item]) ++ items_from "" s'
      else items_from (item +++ String a "") s'
  end.
Definition items : string -> list string := items_from "".
(** At most [S n] items at a time *)
Fixpoint batches (n room : nat) (l : list string) : list (list string) :=
  match l with
  | [] => []
  | x :: l' =>
      match room with
      | 0 => [x] :: batches n n l'
      | S room' => match batches n room' l' with
                   | [] => [[x]]
                   | b :: bs => (x :: b) :: bs
                   end
      end
  end.
(** [exec]: what the command given by the operands prints when it gets these arguments.
    Simplification: without -n all items fit into one command line. *)
Record xargs_oracle : Type := mkXargs { exec : list word -> list string -> string }.
Definition xargs_batches (fl : list wflag) (input : string) : list (list string) :=
  match items input with
  | [] => if given fl ["-r"] then [] else [[]]
  | l => match last_number fl ["-n"] with
         | Some 0 => []
         | Some (S n) => batches n n l
         | None => [l]
         end
  end.
(** -n 0 is an error. *)
Definition xargs_output (o : xargs_oracle) (fl : list wflag) (ops : list word) (input : string) : string :=
  match last_number fl ["-n"] with
  | Some 0 => ""
  | _ => joined (map (exec o ops) (xargs_batches fl input))
  end.
Definition xargs_plain (input : string) : Prop :=
  all_in (fun a => negb (existsb (Ascii.eqb a) ["'"; """"; "\"]%char)) input = true.
Definition is_xargs (o : xargs_oracle) (B : behaviour) : Prop :=
  forall seed fl ops input, known ["-n"; "-r"; "-t"] fl -> xargs_plain input ->
    B seed "xargs" fl ops [input] = xargs_output o fl ops input.
