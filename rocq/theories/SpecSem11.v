(** * What grep is meant to get (C79)
    The generator of grep prepares specifications that are not implemented and therefore
    dropped (ParallelizabilityInfoGeneratorGrep.py 30-63).  What the named functions would
    achieve, in the style of SpecSem.v. *)
From Coq Require Import DecimalString DecimalNat.
Require Import Verif.PyBase Verif.JsonData Verif.Parser Verif.Access Verif.IOInfo Verif.IOGen Verif.IOVars
  Verif.Transformers Verif.ParaTypes Verif.ParaGen Verif.MapperAgg Verif.SpecLists Verif.SpecPara Verif.SpecVars Verif.SpecSem Verif.SpecSem10.

(** ** The generator without the check
    "check can be removed once all are implemented!" (ParallelizabilityInfoGeneratorGrep.py
    60-61): lines 25-71 without the condition of lines 62-63. *)
Definition pg_grep_unchecked : pgen := fun dir inv i =>
  if negb (contains_one_of inv ["-q"]) then
    let! (m, a, info) := grep_cases inv in
    let! cc := make_parallelizer CONSEC_CHUNKS m a info 0 in
    let! rr := make_parallelizer ROUND_ROBIN_PLAIN m a info 0 in
    Ok (append_to_parallelizer_list rr (append_to_parallelizer_list cc i))
  else Ok i.

(** The plan with consecutive chunks that is prepared for an invocation *)
Definition prepared (inv : invocation) (p : parallelizer) : Prop :=
  exists m a i, grep_cases inv = Ok (m, a, i) /\ make_parallelizer CONSEC_CHUNKS m a i 0 = Ok p.

(** ** Functions of two results
    "function for two inputs" (AggregatorKind.py 13): the results of the children of a node are
    combined from left to right. *)
Definition combine_pairs (f : string -> string -> string) (l : list string) : string :=
  match l with [] => "" | x :: l' => fold_left f l' x end.
Inductive pairs_evaluates (B : behaviour) (p : parallelizer) (c : civ) (s : store) (f : string -> string -> string) : plan -> string -> Prop :=
| pe_leaf x y seed m :
    get_actual_mapper p c x y [] = Ok (Some m) -> writes m y ->
    pairs_evaluates B p c s f (Leaf x y seed) (run B seed m s)
| pe_node o seed ts outs :
    pairs_evaluate_all B p c s f ts outs ->
    pairs_evaluates B p c s f (Node o seed ts) (combine_pairs f outs)
with pairs_evaluate_all (B : behaviour) (p : parallelizer) (c : civ) (s : store) (f : string -> string -> string) : list plan -> list string -> Prop :=
| pe_nil : pairs_evaluate_all B p c s f [] []
| pe_cons t r ts rs : pairs_evaluates B p c s f t r -> pairs_evaluate_all B p c s f ts rs ->
    pairs_evaluate_all B p c s f (t :: ts) (r :: rs).
(** For every input in [Q], every plan whose nodes have children gives the output of the
    command; some plan gives another one. *)
Definition pairs_ok (B : behaviour) (p : parallelizer) (c : civ) (i : Z) (f : string -> string -> string) (Q : string -> Prop) : Prop :=
  forall s t seed, fresh_plan c t -> arity (fun n => n <> 0) t -> Q (s i) -> distributes (p_splitter p) (s i) (map s (parts t)) ->
    pairs_evaluates B p c s f t (run B seed c s).
Definition pairs_wrong (B : behaviour) (p : parallelizer) (c : civ) (i : Z) (f : string -> string -> string) (Q : string -> Prop) : Prop :=
  exists s t r, fresh_plan c t /\ arity (fun n => n <> 0) t /\ Q (s i) /\ distributes (p_splitter p) (s i) (map s (parts t)) /\
    pairs_evaluates B p c s f t r /\ forall seed, r <> run B seed c s.

(** "merge_keeping_longer_output", what -L needs instead, and "sum_indiv_results_up" *)
Definition keep_longer (x y : string) : string := if Nat.ltb (String.length x) (String.length y) then y else x.
Definition keep_shorter (x y : string) : string := if Nat.ltb (String.length y) (String.length x) then y else x.
Definition line_value (s : string) : nat :=
  match lines s with
  | [x] => match NilEmpty.uint_of_string x with Some n => Nat.of_uint n | None => 0 end
  | _ => 0
  end.
Definition sum_up (x y : string) : string := number_text (line_value x + line_value y) +++ String newline "".
(** Counts are printed as numbers. *)
Definition counts_plainly (o : grep_oracle) : Prop := forall fl n, grep_count o fl n = number_text n +++ String newline "".

(** ** Numbers and offsets
    "grep_add_line_number_offset" and so on: the mapper gets the number of lines and bytes before
    its part (LINE_NUM_OFFSET, BYTE_OFFSET, Parallelizer.py 22-26) and adds them to what grep prints. *)
Fixpoint until_char (c : ascii) (s : string) : string * string :=
  match s with
  | "" => ("", "")
  | String a s' => if Ascii.eqb a c then ("", s') else let (x, y) := until_char c s' in (String a x, y)
  end.
Fixpoint add_numbers (l : list nat) (s : string) : string :=
  match l with
  | [] => s
  | k :: l' =>
      let (x, y) := until_char ":" s in
      match NilEmpty.uint_of_string x with
      | Some n => number_text (Nat.of_uint n + k) +++ String ":" (add_numbers l' y)
      | None => s
      end
  end.
Definition add_offsets (fl : list wflag) (k m : nat) (text : string) : string :=
  unlines (map (add_numbers ((if given fl ["-n"] then [k] else []) ++ (if given fl ["-b"] then [m] else []))) (lines text)).
(** The results of the parts, each with the numbers of lines and bytes before it *)
Fixpoint with_offsets (fl : list wflag) (F : string -> string) (k m : nat) (pieces : list string) : string :=
  match pieces with
  | [] => ""
  | x :: l => add_offsets fl k m (F x) +++ with_offsets fl F (k + length (lines x)) (m + String.length x) l
  end.
(** How grep prints the parts of a line that it shows: [shown] gives them with their position
    in the line (several with -o); it prints the number of the line and the offset if asked for. *)
Definition prefix_number (n : option nat) (s : string) : string :=
  match n with Some n => number_text n +++ String ":" s | None => s end.
Definition numbers_plainly (o : grep_oracle) (fl : list wflag) (ops : list word) (shown : string -> list (nat * string)) : Prop :=
  (forall n b x, grep_show o fl ops n b true x =
    map (fun e => prefix_number n (prefix_number (match b with Some m => Some (m + fst e) | None => None end) (snd e))) (shown x)) /\
  (forall x, has_char newline x = false -> Forall (fun e => has_char newline (snd e) = false) (shown x)).
