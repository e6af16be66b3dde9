(** * Commands whose output depends on chance or on the order of events (C77)
    The seed of a behaviour stands for whatever decides: random numbers, the order in which
    processes end, answers of a user. *)
Require Import Verif.PyBase Verif.JsonData Verif.Parser Verif.Access Verif.IOInfo Verif.IOVars
  Verif.Transformers Verif.ParaTypes Verif.ParaGen Verif.MapperAgg Verif.SpecPara Verif.SpecSem Verif.SpecSem2 Verif.SpecSem4
  Verif.SpecSem6 Verif.SpecSem7.

(** [parallel_may]: every plan gives something, and only what running [c] may give. *)
Definition parallel_may (B : behaviour) (dir : data_dir) (p : parallelizer) (c : civ) (i : Z) (P : nat -> Prop) (Q : string -> Prop) : Prop :=
  forall s t, fresh_plan c t -> arity P t -> Q (s i) -> distributes (p_splitter p) (s i) (map s (parts t)) ->
    (exists r, evaluates B dir p c s t r) /\
    forall r, evaluates B dir p c s t r -> exists seed, r = run B seed c s.
(** What two runs on the parts may print, one run on the whole may print. *)
Definition piecewise_may (B : behaviour) (c : civ) (i : Z) (Q : string -> Prop) : Prop :=
  forall s seed1 seed2 a b, ends_line a -> Q (a +++ b) ->
    exists seed, run B seed c (put i (a +++ b) s) = run B seed1 c (put i a s) +++ run B seed2 c (put i b s).
(** The output does not depend on the seed. *)
Definition settled (B : behaviour) (c : civ) (i : Z) (Q : string -> Prop) : Prop :=
  forall s seed seed', Q (s i) -> run B seed c s = run B seed' c s.

(** ** xargs with -P, -p, -E and -a
    After the GNU manual.  -P k runs up to k commands at a time, 0 as many as there are; -p asks
    before each command; -E ends the items before the first that is equal to its argument,
    unless -0 or -d is given; -a reads the items from a file. *)
Record xargs_system : Type := mkXargsSystem { world : xargs_world; file_text : word -> string }.
(** The argument of the last of the options *)
Definition last_word (fl : list wflag) (n : string) : option word :=
  fold_left (fun r f => match f with WOption m x => if String.eqb m n then Some x else r | _ => r end) fl None.
Definition source (w : xargs_system) (fl : list wflag) (input : string) : string :=
  match last_word fl "-a" with Some x => file_text w x | None => input end.
(** The string of -E, if it counts *)
Definition end_string (o : xargs_world) (fl : list wflag) : option string :=
  match separator o fl, last_text fl ["-E"] with
  | None, Some e => if String.eqb e "" then None else Some e
  | _, _ => None
  end.
Fixpoint up_to (e : string) (l : list (string * bool)) : list (string * bool) :=
  match l with
  | [] => []
  | (x, b) :: l' => if String.eqb x e then [] else (x, b) :: up_to e l'
  end.
Definition until_end (o : xargs_world) (fl : list wflag) (l : list (string * bool)) : list (string * bool) :=
  match end_string o fl with Some e => up_to e l | None => l end.
Definition all_items (w : xargs_system) (fl : list wflag) (input : string) : option (list (string * bool)) :=
  match read_items (world w) fl (source w fl input) with
  | Some l => Some (until_end (world w) fl l)
  | None => None
  end.
(** What the commands print, one by one *)
Definition printed (o : xargs_world) (fl : list wflag) (ops : list word) (l : list (string * bool)) : list string :=
  match last_text fl ["-I"] with
  | Some r => map (replaced o ops r) (map fst l)
  | None => match l with
            | [] => if given fl ["-r"] then [] else [appended o ops []]
            | _ => map (appended o ops) (grouped fl l)
            end
  end.
(** The answers of the user *)
Inductive confirmed {A} : list A -> list A -> Prop :=
| conf_nil : confirmed [] []
| conf_yes x l l' : confirmed l l' -> confirmed (x :: l) (x :: l')
| conf_no x l l' : confirmed l l' -> confirmed (x :: l) l'.
(** The order in which commands end: one of the first [k] of those that have not ended is next. *)
Definition room (k : nat) (n : nat) : Prop := k = 0 \/ n < k.
Inductive ending {A} (k : nat) : list A -> list A -> Prop :=
| end_nil : ending k [] []
| end_one l x l' order : room k (length l) -> ending k (l ++ l') order -> ending k (l ++ x :: l') (x :: order).
Definition processes (fl : list wflag) : nat := match last_number fl ["-P"] with Some k => k | None => 1 end.
(** Simplification: the output of a command appears at once, when it ends. *)
Definition xargs_may (o : xargs_world) (fl : list wflag) (ops : list word) (l : list (string * bool)) (r : string) : Prop :=
  if given fl ["--help"; "--version"] then r = about o
  else if bad_number fl then r = ""
  else exists run order,
    (if given fl ["-p"] then confirmed (printed o fl ops l) run else run = printed o fl ops l) /\
    ending (processes fl) run order /\ r = joined order.
Definition system_names : list string := xargs_names ++ ["-P"; "-p"; "-E"; "-a"].
(** Also -P and -E have texts as arguments, and -a has one. *)
Definition one_kind9 (fl : list wflag) : Prop :=
  one_kind fl /\ (forall f n, In f fl -> wflag_name f = n -> In n ["-P"; "-E"] -> exists s, f = WOption n (WText s)) /\
  (forall f, In f fl -> wflag_name f = "-a" -> exists x, f = WOption "-a" x).
(** The items are [l], or do not matter.  As in C60 nothing is said about inputs that cannot be
    read; commands do not read the input themselves. *)
Definition reads_items (w : xargs_system) (fl : list wflag) (input : string) (l : list (string * bool)) : Prop :=
  given fl ["--help"; "--version"] = true \/ bad_number fl = true \/
  (all_items w fl input = Some l /\ has_char nul (source w fl input) = false).
(** Everything that may happen happens for some seed. *)
Definition is_xargs_system (w : xargs_system) (B : behaviour) : Prop :=
  forall fl ops input l, known system_names fl -> one_kind9 fl -> reads_items w fl input l ->
    forall r, (exists seed, B seed "xargs" fl ops [input] = r) <-> xargs_may (world w) fl ops l r.

(** ** Safe uses and inputs *)
Definition xargs_fine (o : xargs_world) (fl : list wflag) : Prop :=
  xargs_safe o fl /\ (bad_number fl = true \/ given fl ["-a"] = false).
(** No item of the input ends the items. *)
Definition endless (o : xargs_world) (fl : list wflag) (s : string) : Prop :=
  forall e l, end_string o fl = Some e -> read_items o fl s = Some l -> ~ In e (map fst l).
Definition system_input (o : xargs_world) (fl : list wflag) (s : string) : Prop := xargs_input o fl s /\ endless o fl s.
(** No line contains an item that is equal to the string of -E. *)
Definition end_harmless (o : xargs_world) (fl : list wflag) : Prop :=
  forall e, end_string o fl = Some e -> has_char newline e = true \/ has_char nul e = true.
