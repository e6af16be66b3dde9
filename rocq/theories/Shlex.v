(** * Model of [shlex.split] (Python 3.11, [comments=False, posix=True]) and
    [shlex.quote], as used by pash_annotations/parser/parser.py:12.

    [shlex.split] builds a lexer with [whitespace_split=True, commenters] empty; then
    the word-character and punctuation branches of [read_token] are not reachable.
    What remains is this automaton.  Simplification: [get_token]/[read_token] and
    the enclosing [list(lex)] are fused into one pass over the characters. *)
Require Import Verif.PyBase.

Definition squote : ascii := "'"%char.
Definition dquote : ascii := """"%char.
Definition backslash : ascii := "\"%char.

(** [self.whitespace]: blank, tab, carriage return, newline *)
Definition is_space (c : ascii) : bool :=
  existsb (Ascii.eqb c) [" "%char; "009"%char; "013"%char; "010"%char].
(** [self.quotes]: the two quote characters *)
Definition is_quote (c : ascii) : bool := Ascii.eqb c squote || Ascii.eqb c dquote.

(** [self.state]: a blank between tokens, [a] inside a token, a quote character
    inside quotes, the escape character after a backslash ([back] is
    [escapedstate]: [None] for [a], [Some q] for the quote [q]). *)
Inductive lstate : Type :=
| LSpace
| LWord
| LQuote (q : ascii)
| LEscape (back : option ascii).

Definition append_char (tok : string) (c : ascii) : string := tok +++ one_char c.

(** One run of the lexer from state [st] with the current token [tok] and the
    local variable [quoted]; shlex.py read_token (posix branches). *)
Fixpoint lex (st : lstate) (tok : string) (quoted : bool) (s : string)
  : result (list string) :=
  match s with
  | EmptyString =>
      match st with
      | LSpace => Ok []
      | LWord => if negb (String.eqb tok "") || quoted then Ok [tok] else Ok []
      | LQuote _ => Raise ValueError      (* No closing quotation *)
      | LEscape _ => Raise ValueError     (* No escaped character *)
      end
  | String c s' =>
      match st with
      | LSpace =>
          if is_space c then lex LSpace "" false s'
          else if Ascii.eqb c backslash then lex (LEscape None) tok quoted s'
          else if is_quote c then lex (LQuote c) tok quoted s'
          else lex LWord (one_char c) quoted s'
      | LQuote q =>
          if Ascii.eqb c q then lex LWord tok true s'
          else if Ascii.eqb c backslash && Ascii.eqb q dquote
               then lex (LEscape (Some q)) tok true s'
          else lex (LQuote q) (append_char tok c) true s'
      | LEscape back =>
          match back with
          | None => lex LWord (append_char tok c) quoted s'
          | Some q =>
              let tok' := if negb (Ascii.eqb c backslash) && negb (Ascii.eqb c q)
                          then append_char tok backslash else tok in
              lex (LQuote q) (append_char tok' c) quoted s'
          end
      | LWord =>
          if is_space c then
            if negb (String.eqb tok "") || quoted
            then let! rest := lex LSpace "" false s' in Ok (tok :: rest)
            else lex LSpace "" false s'
          else if is_quote c then lex (LQuote c) tok quoted s'
          else if Ascii.eqb c backslash then lex (LEscape None) tok quoted s'
          else lex LWord (append_char tok c) quoted s'
      end
  end.

Definition shlex_split (s : string) : result (list string) := lex LSpace "" false s.

(** [shlex.quote]: the characters not matched by [_find_unsafe] *)
Definition in_range (c lo hi : ascii) : bool :=
  Nat.leb (nat_of_ascii lo) (nat_of_ascii c) && Nat.leb (nat_of_ascii c) (nat_of_ascii hi).
Definition is_safe (c : ascii) : bool :=
  in_range c "a" "z" || in_range c "A" "Z" || in_range c "0" "9"
  || existsb (Ascii.eqb c)
       ["_"%char; "@"%char; "%"%char; "+"%char; "="%char; ":"%char; ","%char;
        "."%char; "/"%char; "-"%char].

Fixpoint all_safe (s : string) : bool :=
  match s with EmptyString => true | String c s' => is_safe c && all_safe s' end.

(** [s.replace]: every single quote becomes quote, double quote, quote, double
    quote, quote, as in shlex.quote *)
Fixpoint escape_squotes (s : string) : string :=
  match s with
  | EmptyString => ""
  | String c s' =>
      if Ascii.eqb c squote
      then "'""'""'" +++ escape_squotes s'
      else String c (escape_squotes s')
  end.

Definition shlex_quote (s : string) : string :=
  if String.eqb s "" then "''"
  else if all_safe s then s
  else "'" +++ escape_squotes s +++ "'".

(** [shlex.join] *)
Definition shlex_join (l : list string) : string := String.concat " " (map shlex_quote l).
