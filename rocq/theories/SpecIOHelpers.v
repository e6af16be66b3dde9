(** * What generators of input/output information build (C86)
    Specification: what the name of each helper says about which operands. *)
Require Import Verif.PyBase Verif.JsonData Verif.Parser Verif.Access Verif.IOInfo Verif.IOHelpers Verif.SpecIO.

Inductive place : Type := All | OnlyFirst | OnlyLast | ButFirst | ButLast.
(** Operand [j] of [n] is meant. *)
Definition at_place (w : place) (n j : nat) : Prop :=
  j < n /\ match w with All => True | OnlyFirst => j = 0 | OnlyLast => S j = n | ButFirst => j <> 0 | ButLast => S j <> n end.
Definition named (k : io_helper) : option (place * typer) :=
  match k with
  | Stdin _ | Stdout _ | NoOperandsStdin => None
  | AllStreamIn => Some (All, FILESTD STREAM_INPUT)
  | AllStreamOut => Some (All, FILESTD STREAM_OUTPUT)
  | AllOtherIn => Some (All, FILESTD OTHER_INPUT)
  | AllOtherOut => Some (All, FILESTD OTHER_OUTPUT)
  | ButLastStreamIn => Some (ButLast, FILESTD STREAM_INPUT)
  | ButLastOtherIn => Some (ButLast, FILESTD OTHER_INPUT)
  | ButFirstStreamIn => Some (ButFirst, FILESTD STREAM_INPUT)
  | ButFirstStreamOut => Some (ButFirst, FILESTD STREAM_OUTPUT)
  | ButFirstOtherIn => Some (ButFirst, FILESTD OTHER_INPUT)
  | LastStreamOut => Some (OnlyLast, FILESTD STREAM_OUTPUT)
  | LastOtherOut => Some (OnlyLast, FILESTD OTHER_OUTPUT)
  | AllConfigString | AllArgString => Some (All, ARGSTRING)
  | FirstConfigString => Some (OnlyFirst, ARGSTRING)
  | FirstConfigFile => Some (OnlyFirst, FILESTD CONFIG_INPUT)
  end.
(** The call says that operand [j] of [n] is of class [t]. *)
Definition says (k : io_helper) (n j : nat) (t : typer) : Prop := exists w, named k = Some (w, t) /\ at_place w n j.
(** The helpers for streaming inputs do nothing. *)
Definition idle (k : io_helper) : Prop := In k [AllStreamIn; ButLastStreamIn; ButFirstStreamIn].
(** The call sets the class of operand [j] of [n]. *)
Definition assigns (k : io_helper) (n j : nat) (t : typer) : Prop := says k n j t /\ ~ idle k.
(** The helpers that look at the first or last entry *)
Definition indexed (k : io_helper) : Prop :=
  In k [ButLastOtherIn; ButFirstStreamOut; ButFirstOtherIn; LastStreamOut; LastOtherOut; FirstConfigString; FirstConfigFile].
(** No two calls say different things about an operand. *)
Definition consistent (ks : list io_helper) (n : nat) : Prop :=
  forall k k' j t t', In k ks -> In k' ks -> says k n j t -> says k' n j t' -> t = t'.
(** The class that the last call about operand [j] gives it, [t0] if there is none *)
Definition last_word (ks : list io_helper) (n j : nat) (t0 t : typer) : Prop :=
  (exists l k l', ks = l ++ k :: l' /\ assigns k n j t /\ forall k' t', In k' l' -> ~ assigns k' n j t') \/
  ((forall k t', In k ks -> ~ assigns k n j t') /\ t = t0).
(** Standard input is declared: by name, or for want of operands. *)
Definition declares_stdin (inv : invocation) (ks : list io_helper) : Prop :=
  In (Stdin true) ks \/ (In NoOperandsStdin ks /\ operand_list inv = []).

(** The operand written as [x], read as class [t] *)
Definition read_as (t : typer) (x : string) : io_arg :=
  match t with
  | FILESTD STREAM_OUTPUT => out_file STREAM_OUTPUT x
  | FILESTD OTHER_OUTPUT => out_file OTHER_OUTPUT x
  | FILESTD a => in_file a x
  | ARGSTRING | PLAINSTRING => ArgString x
  end.

(** ** Which classes can be given at all
    The classes of the first operand, of those in between and of the last one *)
Definition SI := FILESTD STREAM_INPUT.
Definition SO := FILESTD STREAM_OUTPUT.
Definition OI := FILESTD OTHER_INPUT.
Definition OO := FILESTD OTHER_OUTPUT.
Definition CI := FILESTD CONFIG_INPUT.
Definition expressible2 (f l : typer) : Prop :=
  (In f [SI; ARGSTRING; CI] /\ In l [SI; SO; OO]) \/
  (In f [SI; SO; OI; OO; ARGSTRING; CI] /\ In l [SO; OI; OO]) \/
  (In f [OI; ARGSTRING; CI] /\ In l [SI; SO; OI; OO; ARGSTRING]).
Definition expressible3 (f m l : typer) : Prop :=
  (m = SI /\ In f [SI; ARGSTRING; CI] /\ In l [SI; SO; OO]) \/
  (m = SO /\ In f [SI; SO; OI; OO; ARGSTRING; CI] /\ In l [SO; OO]) \/
  (m = OI /\ In f [SI; SO; OI; OO; ARGSTRING; CI] /\ In l [SO; OI; OO]) \/
  (m = OI /\ In f [OI; ARGSTRING; CI] /\ In l [SI; SO; OI; OO; ARGSTRING]) \/
  (m = OO /\ In f [OO; ARGSTRING; CI] /\ In l [SO; OO]) \/
  (m = ARGSTRING /\ In f [ARGSTRING; CI] /\ In l [SO; OO; ARGSTRING]).
Definition expressible (ts : list typer) : Prop :=
  ts = [] \/ (exists t, ts = [t] /\ In t [SI; SO; OI; OO; ARGSTRING; CI]) \/
  (exists f l, ts = [f; l] /\ expressible2 f l) \/
  (exists f m l n, ts = f :: repeat m (S n) ++ [l] /\ expressible3 f m l).
