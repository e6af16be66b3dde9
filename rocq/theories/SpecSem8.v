(** * What sed does, with most of its commands
    Specification for C59, after the GNU manual and execute.c.  SpecSem2.v has a smaller
    language together with a reader for it; here scripts are given as lists of commands, and
    how texts stand for scripts is a parameter. *)
Require Import Verif.PyBase Verif.SpecSem Verif.SpecSem2.

(** ** Scripts
    Labels and blocks are gone: branches name the position where to go on, and the command at
    the beginning of a block branches to its end if the address does not select the line.
    Left out: w, e, F, v, R, W, the flags e and w of s, addresses with numbers as second
    address, and addresses with ~ or +. *)
Inductive sed_point : Type :=
| PtLine (n : nat)
| PtLast
| PtMatch (regex : string).
Inductive sed_where : Type :=
| Everywhere
| Where (a : sed_point)
| Range (a b : sed_point).
Inductive sed_action : Type :=
| ASubst (regex replacement flags : string)
| ATranslit (from to : string)   (* y *)
| APrint | APrintFirst           (* p, P *)
| ADelete | ADeleteFirst         (* d, D *)
| ANext | ANextAppend            (* n, N *)
| AHold | AHoldAppend | AGet | AGetAppend | AExchange   (* h, H, g, G, x *)
| AAppend (text : string)        (* a *)
| AInsert (text : string)        (* i *)
| AChange (text : string)        (* c *)
| ARead (file : string)          (* r *)
| AList                          (* l *)
| AZap                           (* z *)
| ANumber                        (* = *)
| AQuit | AQuitSilently          (* q, Q *)
| ABranch (target : nat)         (* b *)
| ATest (target : nat)           (* t *)
| ATestNot (target : nat).       (* T *)
Record sed_line : Type := mkSedLine { l_where : sed_where; l_negated : bool; l_action : sed_action }.
Definition sed_script : Type := list sed_line.

(** ** States *)
(** What is printed: texts that end with newlines, except that the last line of the input may
    have none. *)
Definition item : Type := string * bool.
Fixpoint render (l : list item) : string :=
  match l with
  | [] => ""
  | [(s, ended)] => if ended then s +++ String newline "" else s
  | (s, _) :: l' => s +++ String newline (render l')
  end.
(** [s_ended]: will the pattern space be printed with a newline, which is not so after reading a
    last line without one; the hold space has such a flag too.  [s_open]: the commands whose
    range has begun *)
Record sed_state : Type := mkSed
  { s_pc : nat; s_space : string; s_ended : bool; s_hold : item; s_replaced : bool; s_queue : list string;
    s_number : nat; s_rest : list string; s_open : list nat; s_out : list item }.
(** [m_file]: the lines of a file that r names, none if there is no such file.  Simplification: such
    a file does not change and its last line has an end. *)
Record sed_meaning : Type := mkSedMeaning
  { m_match : list wflag -> string -> string -> bool;
    m_subst : list wflag -> string -> string -> string -> string -> string * bool;
    m_translit : string -> string -> string -> string;
    m_list : list wflag -> string -> string;
    m_number : nat -> string;
    m_file : string -> list string }.
Inductive sed_next : Type :=
| Inside (st : sed_state)     (* go on *)
| NextLine (st : sed_state)   (* the cycle ends, the next line is read *)
| Stop (st : sed_state).      (* sed ends *)

Definition goes (n : nat) (st : sed_state) : sed_state :=
  mkSed n (s_space st) (s_ended st) (s_hold st) (s_replaced st) (s_queue st) (s_number st) (s_rest st) (s_open st) (s_out st).
Definition spaces (x : string) (st : sed_state) : sed_state :=
  mkSed (s_pc st) x (s_ended st) (s_hold st) (s_replaced st) (s_queue st) (s_number st) (s_rest st) (s_open st) (s_out st).
Definition becomes (x : item) (st : sed_state) : sed_state :=
  mkSed (s_pc st) (fst x) (snd x) (s_hold st) (s_replaced st) (s_queue st) (s_number st) (s_rest st) (s_open st) (s_out st).
Definition holds (x : item) (st : sed_state) : sed_state :=
  mkSed (s_pc st) (s_space st) (s_ended st) x (s_replaced st) (s_queue st) (s_number st) (s_rest st) (s_open st) (s_out st).
Definition replaces (b : bool) (st : sed_state) : sed_state :=
  mkSed (s_pc st) (s_space st) (s_ended st) (s_hold st) b (s_queue st) (s_number st) (s_rest st) (s_open st) (s_out st).
Definition queues (l : list string) (st : sed_state) : sed_state :=
  mkSed (s_pc st) (s_space st) (s_ended st) (s_hold st) (s_replaced st) l (s_number st) (s_rest st) (s_open st) (s_out st).
Definition opens (l : list nat) (st : sed_state) : sed_state :=
  mkSed (s_pc st) (s_space st) (s_ended st) (s_hold st) (s_replaced st) (s_queue st) (s_number st) (s_rest st) l (s_out st).
Definition says (l : list item) (st : sed_state) : sed_state :=
  mkSed (s_pc st) (s_space st) (s_ended st) (s_hold st) (s_replaced st) (s_queue st) (s_number st) (s_rest st) (s_open st) (s_out st ++ l).
(** Texts of a and r are printed before the next line is read and at the end. *)
Definition flush (st : sed_state) : sed_state :=
  queues [] (says (map (fun t => (t, true)) (s_queue st)) st).
Definition shows (fl : list wflag) (st : sed_state) : sed_state :=
  if given fl ["-n"] then st else says [(s_space st, s_ended st)] st.

(** The next line, if any; [ended]: has the last line an end *)
Definition takes (ended : bool) (st : sed_state) : option (string * sed_state) :=
  match s_rest st with
  | [] => None
  | x :: r => Some (x, mkSed (s_pc st) (s_space st) (match r with [] => ended | _ => true end) (s_hold st) false (s_queue st)
                         (S (s_number st)) r (s_open st) (s_out st))
  end.

(** ** Steps *)
Definition at_point (o : sed_meaning) (fl : list wflag) (a : sed_point) (st : sed_state) : bool :=
  match a with
  | PtLine n => Nat.eqb (s_number st) n
  | PtLast => match s_rest st with [] => true | _ => false end
  | PtMatch r => m_match o fl r (s_space st)
  end.
Definition is_open (st : sed_state) : bool := existsb (Nat.eqb (s_pc st)) (s_open st).
(** Does the address select the line, and the ranges that are open afterwards *)
Definition selects (o : sed_meaning) (fl : list wflag) (w : sed_where) (st : sed_state) : bool * list nat :=
  match w with
  | Everywhere => (true, s_open st)
  | Where a => (at_point o fl a st, s_open st)
  | Range a b =>
      if is_open st then
        (true, if at_point o fl b st then filter (fun n => negb (Nat.eqb n (s_pc st))) (s_open st) else s_open st)
      else if at_point o fl a st then (true, s_pc st :: s_open st)
      else (false, s_open st)
  end.
(** Up to the first newline, and what comes after it *)
Fixpoint first_line (s : string) : string * option string :=
  match s with
  | "" => ("", None)
  | String a s' => if Ascii.eqb a newline then ("", Some s') else let '(x, r) := first_line s' in (String a x, r)
  end.
Definition acts (o : sed_meaning) (fl : list wflag) (ended : bool) (k : sed_action) (st : sed_state) : sed_next :=
  let on st' := Inside (goes (S (s_pc st)) st') in
  match k with
  | ASubst r t f =>
      let '(x, replaced) := m_subst o fl r t f (s_space st) in
      let st' := if replaced then replaces true (spaces x st) else st in
      on (if replaced && has_char "p" f then says [(x, s_ended st)] st' else st')
  | ATranslit a b => on (spaces (m_translit o a b (s_space st)) st)
  | APrint => on (says [(s_space st, s_ended st)] st)
  | APrintFirst => on (says [(fst (first_line (s_space st)), true)] st)
  | ADelete => NextLine (flush st)
  | ADeleteFirst =>
      match snd (first_line (s_space st)) with
      | None => NextLine (flush st)
      | Some x => Inside (goes 0 (spaces x (flush st)))
      end
  | ANext =>
      match takes ended (flush (shows fl st)) with
      | Some (x, st') => on (spaces x st')
      | None => Stop (flush (shows fl st))
      end
  | ANextAppend =>
      match takes ended (flush st) with
      | Some (x, st') => on (spaces (s_space st +++ String newline x) st')
      | None => Stop (flush (shows fl st))
      end
  | AHold => on (holds (s_space st, s_ended st) st)
  | AHoldAppend => on (holds (fst (s_hold st) +++ String newline (s_space st), snd (s_hold st)) st)
  | AGet => on (becomes (s_hold st) st)
  | AGetAppend => on (spaces (s_space st +++ String newline (fst (s_hold st))) st)
  | AExchange => on (holds (s_space st, s_ended st) (becomes (s_hold st) st))
  | AAppend t => on (queues (s_queue st ++ [t]) st)
  | ARead f => on (queues (s_queue st ++ m_file o f) st)
  | AInsert t => on (says [(t, true)] st)
  | AChange t => NextLine (flush (if is_open st then st else says [(t, true)] st))
  | AList => on (says [(m_list o fl (s_space st), true)] st)
  | AZap => on (spaces "" st)
  | ANumber => on (says [(m_number o (s_number st), true)] st)
  | AQuit => Stop (flush (shows fl st))
  | AQuitSilently => Stop st
  | ABranch n => Inside (goes n st)
  | ATest n => if s_replaced st then Inside (goes n (replaces false st)) else on st
  | ATestNot n => if s_replaced st then on (replaces false st) else Inside (goes n st)
  end.
Definition sed_step (o : sed_meaning) (fl : list wflag) (sc : sed_script) (ended : bool) (st : sed_state) : sed_next :=
  match nth_error sc (s_pc st) with
  | None => NextLine (flush (shows fl st))
  | Some l =>
      let '(b, open) := selects o fl (l_where l) st in
      let st' := opens open st in
      if xorb b (l_negated l) then acts o fl ended (l_action l) st' else Inside (goes (S (s_pc st)) st')
  end.
(** Between two cycles *)
Definition starts (ended : bool) (st : sed_state) : option sed_state :=
  match takes ended st with Some (x, st') => Some (goes 0 (spaces x st')) | None => None end.
(** [None]: not within this number of steps *)
Fixpoint sed_run (o : sed_meaning) (fl : list wflag) (sc : sed_script) (ended : bool) (fuel : nat) (st : sed_state) : option (list item) :=
  match fuel with
  | O => None
  | S fuel' =>
      match sed_step o fl sc ended st with
      | Inside st' => sed_run o fl sc ended fuel' st'
      | NextLine st' => match starts ended st' with Some st'' => sed_run o fl sc ended fuel' st'' | None => Some (s_out st') end
      | Stop st' => Some (s_out st')
      end
  end.
Definition sed_begin (l : list string) : sed_state := mkSed 0 "" true ("", true) false [] 0 l [] [].
(** The script ends on the input and prints [out]. *)
Definition sed_prints (o : sed_meaning) (fl : list wflag) (sc : sed_script) (input out : string) : Prop :=
  match starts (is_ended newline input) (sed_begin (lines input)) with
  | None => out = ""
  | Some st => exists fuel l, sed_run o fl sc (is_ended newline input) fuel st = Some l /\ out = render l
  end.
Definition sed_others : list string := ["-e"; "-f"; "--in-place"; "--debug"; "--posix"; "-z"; "--help"; "--version"].
(** [reads]: the script that a text stands for *)
Definition is_sed_full (reads : string -> option sed_script) (o : sed_meaning) (B : behaviour) : Prop :=
  forall seed fl text ops input sc out, known sed_names fl -> given fl sed_others = false ->
    reads text = Some sc -> sed_prints o fl sc input out -> B seed "sed" fl (WText text :: ops) [input] = out.

(** ** Scripts that treat every line by itself
    No line numbers, no last line, no ranges, no other lines and no end; and the hold space is
    never written, or never read, or always written before it is read. *)
Definition own_where (w : sed_where) : Prop := w = Everywhere \/ exists r, w = Where (PtMatch r).
Definition own_action (k : sed_action) : Prop := ~ In k [ANext; ANextAppend; ANumber; AQuit; AQuitSilently].
Definition writes_hold (k : sed_action) : Prop := In k [AHold; AHoldAppend; AExchange].
Definition reads_hold (k : sed_action) : Prop := In k [AGet; AGetAppend; AExchange].
Definition jumps (k : sed_action) : Prop := exists n, k = ABranch n \/ k = ATest n \/ k = ATestNot n.
Definition keeps_first (sc : sed_script) : Prop := exists before after,
  sc = before ++ mkSedLine Everywhere false AHold :: after /\
  forall l, In l before -> ~ reads_hold (l_action l) /\ ~ jumps (l_action l).
Definition by_itself (sc : sed_script) : Prop :=
  (forall l, In l sc -> own_where (l_where l) /\ own_action (l_action l)) /\
  ((forall l, In l sc -> ~ writes_hold (l_action l)) \/ (forall l, In l sc -> ~ reads_hold (l_action l)) \/ keeps_first sc).
(** The script ends on the input. *)
Definition sed_ends (o : sed_meaning) (fl : list wflag) (sc : sed_script) (input : string) : Prop := exists out, sed_prints o fl sc input out.
(** Branches only go forward, and D does not start again. *)
Definition forward (sc : sed_script) : Prop :=
  forall i l, nth_error sc i = Some l -> l_action l <> ADeleteFirst /\
    forall n, In (l_action l) [ABranch n; ATest n; ATestNot n] -> i < n.
