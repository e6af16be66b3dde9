(** * Running commands that see the names of their files (C88)
    In SpecSem.v commands see the contents of their streams only.  Here a file given as an operand also has
    a name, which the command may print; standard input has none. *)
Require Import Verif.PyBase Verif.JsonData Verif.Parser Verif.Access Verif.IOInfo Verif.IOVars
  Verif.Transformers Verif.ParaTypes Verif.ParaGen Verif.MapperAgg Verif.SpecLists Verif.SpecPara Verif.SpecVars Verif.SpecSem Verif.SpecSem4.

(** What the files that the variables stand for are called *)
Definition naming : Type := Z -> string.
Definition is_operand (c : civ) (v : Z) : bool := existsb (fun x => match x with PVar w => Z.eqb w v | _ => false end) (v_ops c).
Definition called (names : naming) (c : civ) (v : Z) : option string := if is_operand c v then Some (names v) else None.
(** As in SpecSem.v, but every input comes with the name it is given by *)
Definition nbehaviour : Type := nat -> string -> list wflag -> list word -> list (option string * string) -> string.
Definition nrun (B : nbehaviour) (names : naming) (seed : nat) (c : civ) (s : store) : string :=
  B seed (v_cmd c) (map (wflag_of c s) (v_flags c)) (map (word_of c s) (v_ops c)) (map (fun v => (called names c v, s v)) (streams c)).
Inductive nevaluates (B : nbehaviour) (names : naming) (dir : data_dir) (p : parallelizer) (c : civ) (s : store) : plan -> string -> Prop :=
| nev_leaf x y seed m :
    get_actual_mapper p c x y [] = Ok (Some m) -> writes m y ->
    nevaluates B names dir p c s (Leaf x y seed) (nrun B names seed m s)
| nev_node o seed ts outs k a :
    nevaluate_all B names dir p c s ts outs ->
    get_aggregator dir (p_aggregator p) c (map root ts) o = Ok (Some (k, a)) -> writes a o ->
    nevaluates B names dir p c s (Node o seed ts) (nrun B names seed a (connect (map root ts) outs s))
with nevaluate_all (B : nbehaviour) (names : naming) (dir : data_dir) (p : parallelizer) (c : civ) (s : store) : list plan -> list string -> Prop :=
| nev_nil : nevaluate_all B names dir p c s [] []
| nev_cons t r ts rs : nevaluates B names dir p c s t r -> nevaluate_all B names dir p c s ts rs ->
    nevaluate_all B names dir p c s (t :: ts) (r :: rs).
(** Whatever the files are called, every plan prints what the command prints. *)
Definition named_ok (B : nbehaviour) (dir : data_dir) (p : parallelizer) (c : civ) (i : Z) (Q : string -> Prop) : Prop :=
  forall names s t seed, fresh_plan c t -> arity (fun n => n <> 0) t -> Q (s i) -> distributes (p_splitter p) (s i) (map s (parts t)) ->
    nevaluates B names dir p c s t (nrun B names seed c s).
Definition is_ncat (B : nbehaviour) : Prop :=
  forall seed ops inputs, inputs <> [] -> B seed "cat" [] ops inputs = joined (map snd inputs).
(** The output at the end of a line is the output before followed by the output after. *)
Definition npiecewise (B : nbehaviour) (c : civ) (i : Z) (Q : string -> Prop) : Prop :=
  forall names s seed seed1 seed2 a b, ends_line a -> Q (a +++ b) ->
    nrun B names seed c (put i (a +++ b) s) = nrun B names seed1 c (put i a s) +++ nrun B names seed2 c (put i b s).
(** The name of the input does not matter. *)
Definition nameless (B : nbehaviour) (c : civ) (i : Z) (Q : string -> Prop) : Prop :=
  forall names name s seed, Q (s i) -> nrun B (put i name names) seed c s = nrun B names seed c s.

(** ** grep with -H, one input and flags that have nothing to do with what is printed for a line:
    the name, a colon and the line for every selected line. *)
Definition grep_plain_flags : list string := ["-H"; "-E"; "-F"; "-G"; "-P"; "-i"; "-y"; "-v"; "-w"; "-x"; "-a"; "-s"; "-e"; "-f"].
Definition shown_name (n : option string) : string := match n with Some name => name | None => "(standard input)" end.
Definition selected (o : grep_oracle) (fl : list wflag) (ops : list word) (l : string) : bool := xorb (given fl ["-v"]) (grep_match o fl ops l).
Definition is_ngrep (o : grep_oracle) (B : nbehaviour) : Prop :=
  forall seed fl ops n input, known grep_plain_flags fl -> is_text input \/ given fl ["-a"] = true ->
    B seed "grep" fl ops [(n, input)] =
    unlines (map (fun l => if given fl ["-H"] then shown_name n +++ ":" +++ l else l) (filter (selected o fl ops) (lines input))).
