(** * sed with one command at some address
    Specification for C59: which scripts of one command treat every line by itself.  What sed does
    is in SpecSem8.v. *)
Require Import Verif.PyBase Verif.SpecSem Verif.SpecSem2 Verif.SpecSem8.

(** The lines that are printed for a line that the command does not treat, and for one that it does;
    [None]: the command looks at other lines, or is no command for a single line.  The hold space is
    empty, as no other command has filled it. *)
Definition untreated (fl : list wflag) (x : string) : list string := if given fl ["-n"] then [] else [x].
Definition treated (o : sed_meaning) (fl : list wflag) (k : sed_action) (x : string) : option (list string) :=
  match k with
  | ASubst r t f =>
      let '(y, replaced) := m_subst o fl r t f x in
      Some ((if replaced && has_char "p" f then [y] else []) ++ untreated fl (if replaced then y else x))
  | ATranslit a b => Some (untreated fl (m_translit o a b x))
  | APrint | APrintFirst => Some (x :: untreated fl x)
  | ADelete => Some []
  | AHold | AHoldAppend => Some (untreated fl x)
  | AGet | AZap => Some (untreated fl "")
  | AGetAppend => Some (untreated fl (x +++ String newline ""))
  | AAppend t => Some (untreated fl x ++ [t])
  | ARead f => Some (untreated fl x ++ m_file o f)
  | AInsert t => Some (t :: untreated fl x)
  | AList => Some (m_list o fl x :: untreated fl x)
  | _ => None
  end.
Definition line_command (k : sed_action) : Prop :=
  In k [APrint; APrintFirst; ADelete; AHold; AHoldAppend; AGet; AZap; AGetAppend; AList] \/
  (exists r t f, k = ASubst r t f) \/ (exists a b, k = ATranslit a b) \/ (exists t, k = AAppend t \/ k = AInsert t \/ k = ARead t).
(** The command makes no difference for the line. *)
Definition no_difference (o : sed_meaning) (fl : list wflag) (k : sed_action) (x : string) : Prop :=
  exists l, treated o fl k x = Some l /\ unlines l = unlines (untreated fl x).

(** Addresses of the language: lines are counted from 1, and no number is a second address. *)
Definition proper_point (a : sed_point) : Prop := a <> PtLine 0.
Definition proper (w : sed_where) : Prop :=
  match w with Everywhere => True | Where a => proper_point a | Range a b => proper_point a /\ forall n, b <> PtLine n end.
(** All lines, or those that match: no other address tells by the line alone. *)
Definition by_line (w : sed_where) : bool :=
  match w with
  | Everywhere | Where (PtMatch _) | Range (PtLine 1) PtLast => true
  | _ => false
  end.
(** Meanings that differ in what matches only *)
Definition same_commands (o o' : sed_meaning) : Prop :=
  m_subst o' = m_subst o /\ m_translit o' = m_translit o /\ m_list o' = m_list o /\ m_number o' = m_number o /\ m_file o' = m_file o.
