(** * Aggregators for adjacent lines
    Specification for C61 and C62, in the style of SpecSem.v.  The code returns no such
    aggregator so far (C29), but annotates commands with their kinds; PaSh has to supply them. *)
Require Import Verif.PyBase Verif.JsonData Verif.Parser Verif.Access Verif.IOInfo Verif.IOVars
  Verif.Transformers Verif.ParaTypes Verif.ParaGen Verif.MapperAgg Verif.SpecLists Verif.SpecPara Verif.SpecVars Verif.SpecSem.

(** ** Combining adjacent results
    "for ADJ_LINES_*, PaSh concatenates the resulting streams" and "both lines are given in one
    input stream" (AggregatorKind.py 4-6): the last line of one result and the first line of the
    next are given to [f]; the output of [f] replaces them.  Nothing is done if one is empty. *)
Definition adjacent (f : string -> string) (x y : string) : string :=
  match rev (lines x), lines y with
  | a :: before, b :: after => unlines (rev before) +++ f (unlines [a; b]) +++ unlines after
  | [], _ => y
  | _, [] => x
  end.
Definition combine_adjacent (f : string -> string) (l : list string) : string :=
  match l with [] => "" | x :: l' => fold_left (adjacent f) l' x end.

(** The result of a plan: leaves run the mapper that the code returns, nodes combine the
    results of their children with [f]. *)
Inductive adj_evaluates (B : behaviour) (p : parallelizer) (c : civ) (s : store) (f : nat -> string -> string) : plan -> string -> Prop :=
| adj_leaf x y seed m :
    get_actual_mapper p c x y [] = Ok (Some m) -> writes m y ->
    adj_evaluates B p c s f (Leaf x y seed) (run B seed m s)
| adj_node o seed ts outs :
    adj_evaluate_all B p c s f ts outs ->
    adj_evaluates B p c s f (Node o seed ts) (combine_adjacent (f seed) outs)
with adj_evaluate_all (B : behaviour) (p : parallelizer) (c : civ) (s : store) (f : nat -> string -> string) : list plan -> list string -> Prop :=
| adj_nil : adj_evaluate_all B p c s f [] []
| adj_cons t r ts rs : adj_evaluates B p c s f t r -> adj_evaluate_all B p c s f ts rs ->
    adj_evaluate_all B p c s f (t :: ts) (r :: rs).
(** ADJ_LINES_SEQ: the function is the sequential command, reading the two lines instead of
    its input.  ADJ_LINES_MERGE: "tr -d '\n' | sed '$a\'" (AggregatorSpec.py 184): the lines
    are joined and a newline is added unless nothing is left. *)
Definition adj_seq_fun (B : behaviour) (c : civ) (i : Z) (s : store) (seed : nat) (text : string) : string :=
  run B seed c (connect [i] [text] s).
Definition merge_fun (text : string) : string :=
  match joined (lines text) with "" => "" | t => t +++ String newline "" end.
Definition adj_fun (k : agg_kind) (B : behaviour) (c : civ) (i : Z) (s : store) : nat -> string -> string :=
  match k with ADJ_LINES_MERGE => fun _ => merge_fun | _ => adj_seq_fun B c i s end.
Definition adjacent_ok (B : behaviour) (p : parallelizer) (c : civ) (i : Z) : Prop :=
  forall s t seed, fresh_plan c t -> distributes (p_splitter p) (s i) (map s (parts t)) ->
    adj_evaluates B p c s (adj_fun (agg_kind_of (p_aggregator p)) B c i s) t (run B seed c s).
Definition adjacent_wrong (B : behaviour) (p : parallelizer) (c : civ) (i : Z) : Prop :=
  exists s t r, fresh_plan c t /\ distributes (p_splitter p) (s i) (map s (parts t)) /\
    adj_evaluates B p c s (adj_fun (agg_kind_of (p_aggregator p)) B c i s) t r /\ forall seed, r <> run B seed c s.

(** ** uniq (GNU)
    [uniq_same]: do the lines count as equal, which depends on -i, --skip-fields, --skip-chars
    and --check-chars. *)
Definition uniq_names : list string :=
  ["-c"; "-d"; "-D"; "-i"; "-u"; "-z"; "--help"; "--version"; "--all-repeated"; "--skip-fields"; "--group"; "--skip-chars"; "--check-chars"].
Record uniq_oracle : Type := mkUniq { uniq_same : list wflag -> string -> string -> bool; uniq_help : string }.
Definition equivalence (eq : string -> string -> bool) : Prop :=
  (forall x, eq x x = true) /\ (forall x y, eq x y = eq y x) /\ (forall x y z, eq x y = true -> eq y z = true -> eq x z = true).
(** Maximal blocks of adjacent lines that are the same *)
Fixpoint blocks (eq : string -> string -> bool) (l : list string) : list (list string) :=
  match l with
  | [] => []
  | x :: l' => match blocks eq l' with
               | (y :: g) :: gs => if eq x y then (x :: y :: g) :: gs else [x] :: (y :: g) :: gs
               | gs => [x] :: gs
               end
  end.
Definition group_method (fl : list wflag) : option string :=
  fold_left (fun r f => match f with WOption "--group" (WText m) => Some m | _ => r end) fl None.
(** An empty line before, after or between the blocks *)
Fixpoint separated (l : list (list string)) : list string :=
  match l with [] => [] | [g] => g | g :: gs => g ++ "" :: separated gs end.
Definition grouped (method : string) (l : list (list string)) : list string :=
  if String.eqb method "prepend" then flat_map (fun g => "" :: g) l
  else if String.eqb method "append" then flat_map (fun g => g ++ [""]) l
  else if String.eqb method "both" then match l with [] => [] | _ => "" :: flat_map (fun g => g ++ [""]) l end
  else separated l.
Definition uniq_output (o : uniq_oracle) (fl : list wflag) (input : string) : string :=
  if given fl ["--help"; "--version"] then uniq_help o
  else
    let sep := if given fl ["-z"] then nul else newline in
    let l := blocks (uniq_same o fl) (records sep input) in
    terminated sep
      (if given fl ["-u"] then flat_map (fun g => match g with [x] => [x] | _ => [] end) l
       else match group_method fl with
            | Some m => grouped m l
            | None => flat_map (fun g => match g with x :: _ => [x] | [] => [] end) l
            end).
(** Without the flags that count or select repeated lines; --group cannot be combined with -u. *)
Definition is_uniq (o : uniq_oracle) (B : behaviour) : Prop :=
  (forall fl, equivalence (uniq_same o fl)) /\
  forall seed fl ops input, known uniq_names fl -> given fl ["-c"; "-d"; "-D"; "--all-repeated"] = false ->
    (given fl ["-u"] = true -> given fl ["--group"] = false) ->
    B seed "uniq" fl ops [input] = uniq_output o fl input.

(** ** tr -d: what merging adjacent lines gives
    Deleting newlines leaves a text without newlines; as soon as two parts leave something,
    the merged line is terminated. *)
Definition not_empty (s : string) : bool := match s with "" => false | _ => true end.
Definition merged_line (results : list string) : string :=
  match filter not_empty results with
  | _ :: _ :: _ => joined results +++ String newline ""
  | _ => joined results
  end.
