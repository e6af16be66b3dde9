(** * Commands that stop before the end of their input (C60, C68)
    xargs stops as soon as a command it runs ends with status 255 or by a signal, cannot be run,
    or (without -x) does not fit into the space for command lines.  After the GNU manual and
    xargs.c; the outputs of the commands before are there. *)
Require Import Verif.PyBase Verif.JsonData Verif.Parser Verif.IOVars Verif.SpecSem Verif.SpecSem2 Verif.SpecSem7.

(** What is printed if each element prints something and may be the last one to be treated *)
Fixpoint until_stop {A} (F : A -> string * bool) (l : list A) : string :=
  match l with
  | [] => ""
  | x :: l' => if snd (F x) then fst (F x) else fst (F x) +++ until_stop F l'
  end.
(** A line *)
Definition one_line (l : string) : Prop := has_char newline l = false.

(** [stops_appended], [stops_replaced]: the command with these arguments makes xargs stop. *)
Record xargs_stopping : Type := mkStopping
  { works : xargs_world;
    stops_appended : list word -> list string -> bool;
    stops_replaced : list word -> string -> string -> bool }.
(** What a command prints and whether it makes xargs stop *)
Definition outcome (w : xargs_stopping) (fl : list wflag) (ops : list word) (b : list string) : string * bool :=
  match last_text fl ["-I"], b with
  | Some r, [x] => (replaced (works w) ops r x, stops_replaced w ops r x)
  | _, _ => (appended (works w) ops b, stops_appended w ops b)
  end.
(** The lists of arguments *)
Definition argument_lists (fl : list wflag) (l : list (string * bool)) : list (list string) :=
  match last_text fl ["-I"] with
  | Some _ => map (fun x => [x]) (map fst l)
  | None => match l with
            | [] => if given fl ["-r"] then [] else [[]]
            | _ => grouped fl l
            end
  end.
Definition xargs_until (w : xargs_stopping) (fl : list wflag) (ops : list word) (l : list (string * bool)) : string :=
  if given fl ["--help"; "--version"] then about (works w)
  else if bad_number fl then ""
  else until_stop (outcome w fl ops) (argument_lists fl l).
Definition is_xargs_stopping (w : xargs_stopping) (B : behaviour) : Prop :=
  forall seed fl ops input l, known xargs_names fl -> one_kind fl ->
    read_items (works w) fl input = Some l -> has_char nul input = false ->
    B seed "xargs" fl ops [input] = xargs_until w fl ops l.

(** The lists of arguments that occur in a safe use: single ones, of any characters but newlines
    and null characters, and with -L any non-empty list of these unless newlines are the
    delimiter. *)
Definition plain (x : string) : Prop := has_char newline x = false /\ has_char nul x = false.
Definition possible (o : xargs_world) (fl : list wflag) (b : list string) : Prop :=
  Forall plain b /\ (length b = 1 \/ b <> [] /\ given fl ["-L"] = true /\ separator o fl = None).

(** ** Quotes that are not closed
    The first item of the input starts with a quote that is not closed on its line.  Then xargs
    gives up before it runs anything: read_line in xargs.c.  (What it does after other items is
    not needed here.) *)
Definition unclosed_first (s : string) : Prop :=
  exists q t rest, quote_char q = true /\ s = String q (t +++ rest) /\ has_char newline t = false /\ has_char q t = false /\
    (rest = "" \/ exists r, rest = String newline r).
Definition gives_up (o : xargs_world) (B : behaviour) : Prop :=
  forall seed fl ops input, known xargs_names fl -> one_kind fl -> given fl ["--help"; "--version"] = false -> bad_number fl = false ->
    separator o fl = None -> unclosed_first input -> B seed "xargs" fl ops [input] = "".
