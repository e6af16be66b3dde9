(** * Functions for adjacent lines that are still to be written (C78)
    Two generators name a function for adjacent lines that does not exist yet: "PLACEHOLDER:
    remove first line if empty" (ParallelizabilityInfoGeneratorTr.py 37-38) and
    "PLACEHOLDER:uniq_merge_count_uniq" (ParallelizabilityInfoGeneratorUniq.py 26).  What such
    a function can and cannot achieve, in the style of SpecSem.v and SpecSem3.v. *)
From Coq Require Import DecimalString DecimalNat.
Require Import Verif.PyBase Verif.JsonData Verif.Parser Verif.Access Verif.IOInfo Verif.IOVars
  Verif.Transformers Verif.ParaTypes Verif.ParaGen Verif.MapperAgg Verif.SpecLists Verif.SpecPara Verif.SpecVars Verif.SpecSem Verif.SpecSem3.

(** ** Any function of two adjacent lines
    The lines of a text with their newlines; the last one need not have one. *)
Fixpoint raw_lines (s : string) : list string :=
  match s with
  | "" => []
  | String a s' =>
      if Ascii.eqb a newline then String a "" :: raw_lines s'
      else match raw_lines s' with [] => [String a ""] | l :: ls => String a l :: ls end
  end.
(** [f] gets the last line of one result and the first line of the next. *)
Definition adjacent_lines (f : string -> string -> string) (x y : string) : string :=
  match rev (raw_lines x), raw_lines y with
  | a :: before, b :: after => joined (rev before) +++ f a b +++ joined after
  | [], _ => y
  | _, [] => x
  end.
Definition combine_lines (f : string -> string -> string) (l : list string) : string :=
  match l with [] => "" | x :: l' => fold_left (adjacent_lines f) l' x end.
(** "both lines are given in one input stream" (AggregatorKind.py 6) *)
Definition one_stream (g : string -> string) (a b : string) : string := g (a +++ b).

(** The result of a plan, as in SpecSem3.v *)
Inductive lines_evaluates (B : behaviour) (p : parallelizer) (c : civ) (s : store) (f : string -> string -> string) : plan -> string -> Prop :=
| le_leaf x y seed m :
    get_actual_mapper p c x y [] = Ok (Some m) -> writes m y ->
    lines_evaluates B p c s f (Leaf x y seed) (run B seed m s)
| le_node o seed ts outs :
    lines_evaluate_all B p c s f ts outs ->
    lines_evaluates B p c s f (Node o seed ts) (combine_lines f outs)
with lines_evaluate_all (B : behaviour) (p : parallelizer) (c : civ) (s : store) (f : string -> string -> string) : list plan -> list string -> Prop :=
| le_nil : lines_evaluate_all B p c s f [] []
| le_cons t r ts rs : lines_evaluates B p c s f t r -> lines_evaluate_all B p c s f ts rs ->
    lines_evaluate_all B p c s f (t :: ts) (r :: rs).
(** Every plan gives the output of the command with the function [f], which may depend on the
    words of the command line; some plan gives another one. *)
Definition lines_ok (B : behaviour) (p : parallelizer) (c : civ) (i : Z) (f : store -> string -> string -> string) : Prop :=
  forall s t seed, fresh_plan c t -> distributes (p_splitter p) (s i) (map s (parts t)) ->
    lines_evaluates B p c s (f s) t (run B seed c s).
Definition lines_wrong (B : behaviour) (p : parallelizer) (c : civ) (i : Z) (f : store -> string -> string -> string) : Prop :=
  exists s t r, fresh_plan c t /\ distributes (p_splitter p) (s i) (map s (parts t)) /\
    lines_evaluates B p c s (f s) t r /\ forall seed, r <> run B seed c s.

(** ** tr -s
    Squeezing again, and the function that the generator names: the first line of the next
    result is dropped if it is empty. *)
Definition squeeze_again (q : ascii -> bool) (a b : string) : string := squeeze q (a +++ b).
Definition drop_empty (a b : string) : string := if String.eqb b (String newline "") then a else a +++ b.
(** What makes the latter right: tr writes and squeezes the newlines that it reads, or it
    writes no newlines at all and does not squeeze what it writes for newlines. *)
Definition drops_right (o : tr_oracle) (fl : list wflag) (ops : list word) : Prop :=
  (tr_image o fl ops newline = newline /\ tr_squeezes o fl ops newline = true) \/
  ((forall a, tr_image o fl ops a <> newline) /\ tr_squeezes o fl ops (tr_image o fl ops newline) = false).

(** ** uniq -c, -d and -u (GNU)
    Numbers are written in at least seven columns. *)
Definition number_text (n : nat) : string := NilEmpty.string_of_uint (Nat.to_uint n).
Fixpoint blanks (n : nat) : string := match n with 0 => "" | S n' => String " " (blanks n') end.
Definition count_text (n : nat) : string :=
  blanks (7 - String.length (number_text n)) +++ number_text n +++ " ".
Definition selected (fl : list wflag) (g : list string) : bool :=
  (negb (given fl ["-d"]) || Nat.leb 2 (length g)) && (negb (given fl ["-u"]) || Nat.leb (length g) 1).
Definition shown_block (fl : list wflag) (g : list string) : string :=
  (if given fl ["-c"] then count_text (length g) else "") +++ hd "" g.
Definition uniq_lines (o : uniq_oracle) (fl : list wflag) (input : string) : string :=
  if given fl ["--help"; "--version"] then uniq_help o
  else
    let sep := if given fl ["-z"] then nul else newline in
    terminated sep (map (shown_block fl) (filter (selected fl) (blocks (uniq_same o fl) (records sep input)))).
(** -D, --all-repeated and --group are not specified here; they cannot be combined with -c. *)
Definition is_counting_uniq (o : uniq_oracle) (B : behaviour) : Prop :=
  (forall fl, equivalence (uniq_same o fl)) /\
  forall seed fl ops input, known uniq_names fl -> given fl ["-D"; "--all-repeated"; "--group"] = false ->
    B seed "uniq" fl ops [input] = uniq_lines o fl input.

(** ** The function that the generator of uniq asks for
    "one needs to cut the prefix of numbers, run the sequential and see whether it is merged"
    (ParallelizabilityInfoGeneratorUniq.py 17-18).  [split_count]: the number before a line and
    the line. *)
Fixpoint drop_blanks (s : string) : string :=
  match s with String a s' => if Ascii.eqb a " " then drop_blanks s' else s | "" => "" end.
Fixpoint until_blank (s : string) : string * string :=
  match s with
  | "" => ("", "")
  | String a s' => if Ascii.eqb a " " then ("", s') else let (x, y) := until_blank s' in (String a x, y)
  end.
Definition split_count (s : string) : option (nat * string) :=
  let (x, y) := until_blank (drop_blanks s) in
  match NilEmpty.uint_of_string x with Some n => Some (Nat.of_uint n, y) | None => None end.
(** [same]: the lines without their numbers are merged. *)
Definition count_merge (same : string -> string -> bool) (text : string) : string :=
  match map split_count (lines text) with
  | [Some (n, x); Some (m, y)] => if same x y then unlines [count_text (n + m) +++ x] else text
  | _ => text
  end.
(** Running the sequential command without -c on two lines gives one line. *)
Definition without_count (fl : list wflag) : list wflag := filter (fun f => negb (String.eqb (wflag_name f) "-c")) fl.
Definition merged_by (B : behaviour) (fl : list wflag) (ops : list word) (x y : string) : bool :=
  Nat.eqb (length (lines (B 0 "uniq" (without_count fl) ops [unlines [x; y]]))) 1.
