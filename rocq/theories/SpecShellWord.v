(** * Specification: how a POSIX shell reads a word with parameters
    POSIX.1-2017, Shell Command Language, 2.2 (quoting), 2.3 (tokens) and 2.6.2 (parameters) *)
From Coq Require Import ZArith.
Require Import Verif.PyBase Verif.SpecShlex Verif.ArgChars.

(** What a word consists of: characters and parameters, each quoted or not, and pairs of quotes
    (which matter if nothing is between them).  [ParamOp] is a parameter with an operator, such as
    the length of the value or a default. *)
Inductive part : Type :=
| Lit (quoted : bool) (c : ascii)
| Param (quoted : bool) (name : string)
| ParamOp (quoted : bool) (op name arg : text)
| Quotes.

Definition NL : ascii := "010"%char.
Definition DOLLAR : ascii := "$"%char.
Definition one_of (l : list ascii) (c : ascii) : bool := existsb (Ascii.eqb c) l.
Definition between (c lo hi : ascii) : bool :=
  Nat.leb (nat_of_ascii lo) (nat_of_ascii c) && Nat.leb (nat_of_ascii c) (nat_of_ascii hi).
Definition digit (c : ascii) : bool := between c "0" "9".
Definition name_first (c : ascii) : bool := between c "a" "z" || between c "A" "Z" || Ascii.eqb c "_".
Definition name_char (c : ascii) : bool := name_first c || digit c.
(** The special parameters *)
Definition special (c : ascii) : bool := one_of ["@"; "*"; "#"; "?"; "-"; "$"; "!"]%char c.
(** The characters before which a dollar is not an ordinary character *)
Definition starts (c : ascii) : bool := name_first c || digit c || special c || one_of ["{"; "("]%char c.
(** The characters that end a word *)
Definition ends_word (c : ascii) : bool := one_of [" "; "009"; "010"; ";"; "&"; "|"; "<"; ">"; "("; ")"]%char c.
(** The characters that a backslash protects within double quotes *)
Definition protected (c : ascii) : bool := one_of ["$"; "`"; """"; "\"]%char c.
Fixpoint all_of (p : ascii -> bool) (s : string) : bool :=
  match s with EmptyString => true | String c s' => p c && all_of p s' end.
Definition param_name (s : string) : bool :=
  match s with
  | EmptyString => false
  | String c s' => name_first c && all_of name_char s' || all_of digit s || special c && String.eqb s' ""
  end.

(** ** Reading
    [RText q]: within a word, [q] tells whether within double quotes; [RSingle]: within single
    quotes; [REscape q]: after a backslash; [RDollar q]: after a dollar; [RName q n]: within the name
    of a parameter without braces; [RBrace q n]: within braces. *)
Inductive rstate : Type :=
| RText (q : bool)
| RSingle
| REscape (q : bool)
| RDollar (q : bool)
| RName (q : bool) (n : string)
| RBrace (q : bool) (n : string).
Definition emit (p : part) (r : option (list part)) : option (list part) :=
  match r with Some l => Some (p :: l) | None => None end.
(** [None]: this is not one whole word, or it has command substitutions or parameters with operators *)
Fixpoint read (st : rstate) (s : string) : option (list part) :=
  match s with
  | EmptyString =>
      match st with
      | RText false => Some []
      | RDollar false => Some [Lit false DOLLAR]
      | RName false n => Some [Param false n]
      | _ => None
      end
  | String c s' =>
      let text (q : bool) :=
        if Ascii.eqb c DQ then if q then read (RText false) s' else emit Quotes (read (RText true) s')
        else if Ascii.eqb c BS then read (REscape q) s'
        else if Ascii.eqb c DOLLAR then read (RDollar q) s'
        else if Ascii.eqb c "`" then None
        else if q then emit (Lit true c) (read (RText true) s')
        else if Ascii.eqb c SQ then emit Quotes (read RSingle s')
        else if ends_word c then None
        else emit (Lit false c) (read (RText false) s') in
      match st with
      | RText q => text q
      | RSingle => if Ascii.eqb c SQ then read (RText false) s' else emit (Lit true c) (read RSingle s')
      | REscape q =>
          if Ascii.eqb c NL then read (RText q) s'
          else if negb q || protected c then emit (Lit true c) (read (RText q) s')
          else emit (Lit true BS) (emit (Lit true c) (read (RText q) s'))
      | RDollar q =>
          if Ascii.eqb c "{" then read (RBrace q "") s'
          else if Ascii.eqb c "(" then None
          else if name_first c then read (RName q (one_char c)) s'
          else if digit c || special c then emit (Param q (one_char c)) (read (RText q) s')
          else emit (Lit q DOLLAR) (text q)
      | RName q n => if name_char c then read (RName q (n +++ one_char c)) s' else emit (Param q n) (text q)
      | RBrace q n =>
          if Ascii.eqb c "}" then if param_name n then emit (Param q n) (read (RText q) s') else None
          else read (RBrace q (n +++ one_char c)) s'
      end
  end.
(** A word is not empty and does not begin a comment. *)
Definition read_word (s : string) : option (list part) :=
  match s with
  | EmptyString => None
  | String c _ => if Ascii.eqb c "#" then None else read (RText false) s
  end.

(** ** The entries of a word
    [means q l ps]: the entries [l] stand for [ps]; [q]: they are within quotes. *)
Inductive means : bool -> list arg_char -> list part -> Prop :=
| mn_nil q : means q [] []
| mn_char q c l ps : means q l ps -> means q (AC (code c) :: l) (Lit q c :: ps)
| mn_escape q c l ps : means q l ps -> means q (AE (code c) :: l) (Lit true c :: ps)
| mn_param q b x a l ps : param_name x = true -> means q l ps ->
    means q (AV [lit "Normal"; b; lit x; a] :: l) (Param q x :: ps)
| mn_param_op q f b x a l ps : f <> lit "Normal" -> param_name x = true -> means q l ps ->
    means q (AV [f; b; lit x; a] :: l) (ParamOp q f (lit x) a :: ps)
| mn_quoted i l ps ps' : means true i ps -> means false l ps' -> means false (AQ i :: l) (Quotes :: ps ++ ps').
(** The next entry is printed with a character in front that starts a parameter after a dollar. *)
Inductive next_starts : list arg_char -> Prop :=
| ns_char c l : starts c = true -> next_starts (AC (code c) :: l)
| ns_escape c l : starts c = true -> next_starts (AE (code c) :: l)
| ns_param v l : next_starts (AV v :: l).
(** The next entry is a character, escaped or not, of which this holds. *)
Inductive next_char (p : ascii -> bool) : list arg_char -> Prop :=
| nc_char c l : p c = true -> next_char p (AC (code c) :: l)
| nc_escape c l : p c = true -> next_char p (AE (code c) :: l).

(** Entries as a shell makes them from a script: which characters stand without an escape. *)
Inductive in_script : bool -> list arg_char -> Prop :=
| sc_nil q : in_script q []
| sc_char q c l : one_of [DQ; BS; DOLLAR; "`"%char] c = false -> (q = false -> c <> SQ /\ ends_word c = false) ->
    in_script q l -> in_script q (AC (code c) :: l)
| sc_dollar q l : (forall c l', l = AC (code c) :: l' -> starts c = false) -> (forall v l', l <> AV v :: l') ->
    in_script q l -> in_script q (AC (code DOLLAR) :: l)
| sc_escape q c l : in_script q l -> in_script q (AE (code c) :: l)
| sc_param q v l : in_script q l -> in_script q (AV v :: l)
| sc_quoted i l : in_script true i -> in_script false l -> in_script false (AQ i :: l).
Definition no_comment (l : list arg_char) : Prop := forall l', l <> AC (code "#") :: l'.

(** ** What survives
    Outside of quotes no character is escaped.  Within quotes the escaped characters are not among
    double quotes and backquotes, dollars do not begin a parameter, and backslashes are before
    characters that they do not protect.  No parameter has an operator. *)
Inductive survives : bool -> list arg_char -> Prop :=
| sv_nil q : survives q []
| sv_char q c l : c <> DOLLAR -> survives q l -> survives q (AC (code c) :: l)
| sv_escape c l : one_of [DQ; BS; DOLLAR; "`"%char] c = false -> survives true l -> survives true (AE (code c) :: l)
| sv_dollar q l : ~ next_starts l -> survives q l -> survives q (AC (code DOLLAR) :: l)
| sv_escaped_dollar l : ~ next_starts l -> survives true l -> survives true (AE (code DOLLAR) :: l)
| sv_escaped_backslash l : next_char (fun c => negb (protected c) && negb (Ascii.eqb c NL)) l ->
    survives true l -> survives true (AE (code BS) :: l)
| sv_param q b x a l : survives q l -> survives q (AV [lit "Normal"; b; x; a] :: l)
| sv_quoted i l : survives true i -> survives false l -> survives false (AQ i :: l).
