(** * Commands that print the name of their input, for plans of every kind; wc (C88, C89) *)
Require Import Verif.PyBase Verif.Parser Verif.Access Verif.IOVars Verif.ParaTypes Verif.MapperAgg Verif.SpecVars Verif.SpecMapper Verif.SpecSem Verif.SpecSem4 Verif.SpecNames Verif.SpecCustom.

(** The mapper needs no files that the command does not have. *)
Definition no_further_files (p : parallelizer) (c : civ) : Prop :=
  forall base, mapper_base (p_mapper p) c base -> consistent base /\ incl (vars base) (vars c).
(** wc prints the name of an operand after its numbers; different names are printed differently. *)
Definition is_nwc (o : wc_oracle) (with_name : list nat -> string -> string) (B : nbehaviour) : Prop :=
  (forall l n n', with_name l n = with_name l n' -> n = n') /\
  forall seed fl ops n x, known wc_columns fl -> B seed "wc" fl ops [(n, x)] =
    let numbers := map (wc_number o x) (wc_asked fl) in
    match n with Some name => with_name numbers name | None => wc_show o numbers end.
(** The command line reads two results, adds up the numbers (takes the larger one in the column of -L) and prints
    the name it finds in the first result. *)
Definition keeps_first_name (with_name : list nat -> string -> string) (B : nbehaviour) (agg : invocation) (fl : list wflag) : Prop :=
  forall seed n n' l l' name name',
    B seed (cmd_name agg) (map (fun fo => WFlag (fo_name fo)) (flag_option_list agg)) [WStream STREAM_INPUT; WStream STREAM_INPUT]
      [(n, with_name l name); (n', with_name l' name')] =
    with_name (column_wise (map (fun n => if String.eqb n "-L" then Nat.max else Nat.add) (wc_asked fl)) l l') name.
