(** * What xargs does, with more of its options
    Specification for C60, after the GNU manual and xargs.c.  In the style of SpecSem2.v. *)
Require Import Verif.PyBase Verif.SpecSem Verif.SpecSem2.

Definition tab_char : ascii := ascii_of_nat 9.
(** Blanks end an item; white space before an item is skipped. *)
Definition blank_char (a : ascii) : bool := existsb (Ascii.eqb a) [" "%char; tab_char].
Definition white_char (a : ascii) : bool :=
  blank_char a || existsb (Ascii.eqb a) [newline; ascii_of_nat 11; ascii_of_nat 12; ascii_of_nat 13].
Definition quote_char (a : ascii) : bool := existsb (Ascii.eqb a) ["'"; """"]%char.

(** ** Reading items
    Quotes and backslashes protect characters.  [item]: the item being read, if any; [prev]: the
    last character read.  Each item comes with whether it ends its line: the newline must follow
    at once, after a blank the next line continues this one.  A quote that is not closed on its
    line is an error, [None]. *)
Inductive reading : Type := Outside | Quoted (q : ascii) | Escaped.
Definition add (item : option string) (a : ascii) : option string :=
  Some (match item with None => String a "" | Some x => x +++ String a "" end).
Definition emit (item : option string) (ends : bool) (rest : option (list (string * bool))) : option (list (string * bool)) :=
  match item with
  | None => rest
  | Some x => match rest with Some l => Some ((x, ends) :: l) | None => None end
  end.
Fixpoint read (blanks_separate : bool) (item : option string) (st : reading) (prev : ascii) (s : string)
  : option (list (string * bool)) :=
  match s with
  | "" => match st with Quoted _ => None | _ => emit item false (Some []) end
  | String a s' =>
      match st with
      | Quoted q =>
          if Ascii.eqb a newline then None
          else if Ascii.eqb a q then read blanks_separate (Some (match item with None => "" | Some x => x end)) Outside a s'
          else read blanks_separate (add item a) st a s'
      | Escaped => read blanks_separate (add item a) Outside a s'
      | Outside =>
          if (match item with None => true | _ => false end) && white_char a then read blanks_separate None Outside a s'
          else if Ascii.eqb a newline then emit item (negb (blank_char prev)) (read blanks_separate None Outside a s')
          else if blanks_separate && blank_char a then emit item false (read blanks_separate None Outside a s')
          else if Ascii.eqb a "\" then read blanks_separate (Some (match item with None => "" | Some x => x end)) Escaped a s'
          else if quote_char a then read blanks_separate (Some (match item with None => "" | Some x => x end)) (Quoted a) a s'
          else read blanks_separate (add item a) Outside a s'
      end
  end.

(** ** Options *)
(** The argument of the last of the options *)
Definition last_text (fl : list wflag) (names : list string) : option string :=
  fold_left (fun r f => match f with
                        | WOption n (WText s) => if mem n names then Some s else r
                        | _ => r
                        end) fl None.
(** The two oracles for commands: with arguments appended, and with the argument in place of
    a string; how -d reads its argument; what --help and --version print. *)
Record xargs_world : Type := mkXargsWorld
  { appended : list word -> list string -> string;
    replaced : list word -> string -> string -> string;
    delimiter : string -> ascii;
    about : string }.
(** The last of -0 and -d decides. *)
Definition separator (o : xargs_world) (fl : list wflag) : option ascii :=
  fold_left (fun r f => match f with
                        | WFlag "--null" => Some nul
                        | WOption "--delimiter" (WText s) => Some (delimiter o s)
                        | _ => r
                        end) fl None.
Definition read_items (o : xargs_world) (fl : list wflag) (input : string) : option (list (string * bool)) :=
  match separator o fl with
  | Some d => Some (map (fun r => (r, true)) (records d input))
  | None => read (negb (given fl ["-I"])) None Outside newline input
  end.
(** Items up to the end of the [S n]th line *)
Fixpoint line_batches (n room : nat) (l : list (string * bool)) : list (list string) :=
  match l with
  | [] => []
  | (x, e) :: l' =>
      match e, room with
      | true, 0 => [x] :: line_batches n n l'
      | _, _ => match line_batches n (if e then Nat.pred room else room) l' with
                | [] => [[x]]
                | b :: bs => (x :: b) :: bs
                end
      end
  end.
(** The lists of arguments of the commands run for the items; 0 is an error. *)
Definition grouped (fl : list wflag) (l : list (string * bool)) : list (list string) :=
  match last_number fl ["-n"], last_number fl ["-L"] with
  | Some 0, _ | _, Some 0 => []
  | Some (S n), _ => batches n n (map fst l)
  | None, Some (S n) => line_batches n n l
  | None, None => [map fst l]
  end.
Definition bad_number (fl : list wflag) : bool :=
  match last_number fl ["-n"], last_number fl ["-L"] with Some 0, _ | _, Some 0 => true | _, _ => false end.
Definition xargs_prints (o : xargs_world) (fl : list wflag) (ops : list word) (l : list (string * bool)) : string :=
  if given fl ["--help"; "--version"] then about o
  else if bad_number fl then ""
  else match last_text fl ["-I"] with
       | Some r => joined (map (replaced o ops r) (map fst l))
       | None =>
           match l with
           | [] => if given fl ["-r"] then "" else appended o ops []
           | _ => joined (map (appended o ops) (grouped fl l))
           end
       end.

(** No two of -n, -L and -I, which exclude each other; all arguments are texts. *)
Definition one_kind (fl : list wflag) : Prop :=
  (forall f n, In f fl -> wflag_name f = n -> In n ["-n"; "-L"; "-I"; "--delimiter"] -> exists s, f = WOption n (WText s)) /\
  (forall n m, In n ["-n"; "-L"; "-I"] -> In m ["-n"; "-L"; "-I"] -> n <> m -> given fl [n] = true -> given fl [m] = false) /\
  (forall f, In f fl -> wflag_name f = "--null" -> f = WFlag "--null").
Definition xargs_names : list string :=
  ["-n"; "-L"; "-I"; "-r"; "-t"; "-x"; "-o"; "--null"; "--delimiter"; "--show-limits"; "--help"; "--version"].
(** Nothing is said about inputs that cannot be read; a null character is an error unless it
    separates items.  Simplification: all arguments fit into a command line if not limited by
    -n, -L or -I. *)
Definition is_xargs_full (o : xargs_world) (B : behaviour) : Prop :=
  forall seed fl ops input l, known xargs_names fl -> one_kind fl ->
    read_items o fl input = Some l -> has_char nul input = false ->
    B seed "xargs" fl ops [input] = xargs_prints o fl ops l.

(** ** Safe uses
    One command for each item (-n 1), line (-L 1) or line (-I), none for an empty input, and
    items that end at the ends of lines. *)
Definition xargs_safe (o : xargs_world) (fl : list wflag) : Prop :=
  given fl ["--help"; "--version"] = false /\
  (bad_number fl = true \/
   ((separator o fl = None \/ separator o fl = Some newline) /\
    (given fl ["-I"] = true \/
     (given fl ["-r"] = true /\ (last_number fl ["-n"] = Some 1 \/ last_number fl ["-L"] = Some 1))))).

(** ** Inputs *)
(** Newlines are neither quoted nor escaped. *)
Fixpoint lines_unquoted (st : reading) (s : string) : bool :=
  match s with
  | "" => match st with Quoted _ => false | _ => true end
  | String a s' =>
      match st with
      | Outside => lines_unquoted (if Ascii.eqb a "\" then Escaped else if quote_char a then Quoted a else Outside) s'
      | Quoted q => negb (Ascii.eqb a newline) && lines_unquoted (if Ascii.eqb a q then Outside else st) s'
      | Escaped => negb (Ascii.eqb a newline) && lines_unquoted Outside s'
      end
  end.
(** The last item of a line, if any, is followed by the newline at once. *)
Definition complete_line (r : string) : Prop :=
  match read true None Outside newline (r +++ String newline "") with
  | Some l => forall x e l', l = l' ++ [(x, e)] -> e = true
  | None => True
  end.
Definition unquoted_lines (s : string) : Prop := lines_unquoted Outside s = true /\ has_char nul s = false.
Definition no_null (s : string) : Prop := has_char nul s = false.
(** What can be cut: any input if newlines separate the items; otherwise quotes and backslashes
    must not hide newlines, and with -L no line may continue on the next one. *)
Definition xargs_input (o : xargs_world) (fl : list wflag) (s : string) : Prop :=
  match separator o fl with
  | Some _ => no_null s
  | None => unquoted_lines s /\ (given fl ["-L"] = true -> Forall complete_line (lines s))
  end.
Definition tidy_lines (s : string) : Prop := unquoted_lines s /\ Forall complete_line (lines s).
