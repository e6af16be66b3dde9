(** * Running commands on data
    The repository does not run commands.  This file specifies what it means to run an
    invocation with io variables, to run a parallel plan, and what the commands do.  It is the
    reading of the theorems about sound parallelization (C50, C51, C58-C60). *)
Require Import Verif.PyBase Verif.JsonData Verif.Parser Verif.Access Verif.IOInfo Verif.IOVars
  Verif.Transformers Verif.ParaTypes Verif.ParaGen Verif.MapperAgg Verif.SpecLists Verif.SpecPara Verif.SpecVars.
From Coq Require Export Permutation Sorted.

(** ** Text *)
Definition newline : ascii := ascii_of_nat 10.
Definition nul : ascii := ascii_of_nat 0.
Definition joined (l : list string) : string := fold_right String.append "" l.
(** The records of a text, without their separators; the last one need not be terminated. *)
Fixpoint records (sep : ascii) (s : string) : list string :=
  match s with
  | "" => []
  | String a s' =>
      if Ascii.eqb a sep then "" :: records sep s'
      else match records sep s' with [] => [String a ""] | r :: rs => String a r :: rs end
  end.
Definition terminated (sep : ascii) (l : list string) : string :=
  joined (map (fun r => r +++ String sep "") l).
Definition lines : string -> list string := records newline.
Definition unlines : list string -> string := terminated newline.

(** ** Running an invocation
    What a command gets to see: arguments, contents of configuration files, and places for the
    streams. *)
Inductive word : Type :=
| WNone
| WText (s : string)
| WRes (r : resource)
| WStream (a : access)
| WFile (a : option access) (content : string).
Inductive wflag : Type :=
| WFlag (name : string)
| WOption (name : string) (arg : word).
Definition wflag_name (f : wflag) : string := match f with WFlag n => n | WOption n _ => n end.
Definition store : Type := Z -> string.
Definition word_of (c : civ) (s : store) (x : pyval) : word :=
  match x with
  | PNone => WNone
  | PVar v => match v_acc c v with
              | Some STREAM_INPUT => WStream STREAM_INPUT
              | Some STREAM_OUTPUT => WStream STREAM_OUTPUT
              | a => WFile a (s v)
              end
  | PArg t => WText t
  | PRes r => WRes r
  end.
Definition wflag_of (c : civ) (s : store) (f : flag_el) : wflag :=
  match f with
  | FFlag n => WFlag n
  | FOptVar n a => WOption n (word_of c s a)
  | FOptIO n a => WOption n (word_of c s a)
  end.
Definition streams (c : civ) : list Z :=
  filter (fun v => match v_acc c v with Some STREAM_INPUT => true | _ => false end) (vars c).
(** What the commands of a system do: [behaviour seed cmd flags operands inputs] is what is
    written to the streaming output.  The seed stands for everything that may differ between
    two runs. *)
Definition behaviour : Type := nat -> string -> list wflag -> list word -> list string -> string.
Definition run (B : behaviour) (seed : nat) (c : civ) (s : store) : string :=
  B seed (v_cmd c) (map (wflag_of c s) (v_flags c)) (map (word_of c s) (v_ops c)) (map s (streams c)).
(** The invocation writes its result to the variable. *)
Definition writes (c : civ) (v : Z) : Prop := In v (vars c) /\ v_acc c v = Some STREAM_OUTPUT.

(** ** Running a parallel plan
    A leaf reads one part of the input and runs a mapper; a node runs an aggregator on the
    results of other processes. *)
Inductive plan : Type :=
| Leaf (part result : Z) (seed : nat)
| Node (result : Z) (seed : nat) (children : list plan).
Definition root (t : plan) : Z := match t with Leaf _ y _ => y | Node o _ _ => o end.
Fixpoint parts (t : plan) : list Z :=
  match t with Leaf x _ _ => [x] | Node _ _ ts => flat_map parts ts end.
Fixpoint plan_vars (t : plan) : list Z :=
  match t with Leaf x y _ => [x; y] | Node o _ ts => o :: flat_map plan_vars ts end.
(** Every node has [n] children, for an [n] that satisfies [P]. *)
Fixpoint arity (P : nat -> Prop) (t : plan) : Prop :=
  match t with
  | Leaf _ _ _ => True
  | Node _ _ ts => P (length ts) /\ fold_right and True (map (arity P) ts)
  end.
(** The store with other contents for some variables *)
Fixpoint connect (vs : list Z) (contents : list string) (s : store) : store :=
  match vs, contents with
  | v :: vs', x :: contents' => fun w => if Z.eqb w v then x else connect vs' contents' s w
  | _, _ => s
  end.
Inductive evaluates (B : behaviour) (dir : data_dir) (p : parallelizer) (c : civ) (s : store) : plan -> string -> Prop :=
| ev_leaf x y seed m :
    get_actual_mapper p c x y [] = Ok (Some m) -> writes m y ->
    evaluates B dir p c s (Leaf x y seed) (run B seed m s)
| ev_node o seed ts outs k a :
    evaluate_all B dir p c s ts outs ->
    get_aggregator dir (p_aggregator p) c (map root ts) o = Ok (Some (k, a)) -> writes a o ->
    evaluates B dir p c s (Node o seed ts) (run B seed a (connect (map root ts) outs s))
with evaluate_all (B : behaviour) (dir : data_dir) (p : parallelizer) (c : civ) (s : store) : list plan -> list string -> Prop :=
| ev_nil : evaluate_all B dir p c s [] []
| ev_cons t r ts rs : evaluates B dir p c s t r -> evaluate_all B dir p c s ts rs ->
    evaluate_all B dir p c s (t :: ts) (r :: rs).
(** Variables that the original does not use *)
Definition fresh_plan (c : civ) (t : plan) : Prop :=
  NoDup (plan_vars t) /\ forall v, In v (plan_vars t) -> v_acc c v = None /\ ~ In v (vars c).

(** ** Splitters
    A splitter cuts at the ends of lines. *)
Definition ends_line (s : string) : Prop := s = "" \/ exists t, s = t +++ String newline "".
Definition cut_at_lines (input : string) (pieces : list string) : Prop :=
  input = joined pieces /\ Forall ends_line (removelast pieces).
(** [distributes k input pieces]: what the processes may get to read.  Consecutive chunks are
    read in order.  A round robin splitter deals out blocks of lines: the plain one runs the
    command on each block and puts the results back in order, so that the blocks are the
    pieces; with the unwrap flag each process reads its blocks without their positions, so
    that the lines may have been dealt out in any way. *)
Definition distributes (k : splitter) (input : string) (pieces : list string) : Prop :=
  match k with
  | CONSEC_CHUNKS | ROUND_ROBIN_PLAIN => cut_at_lines input pieces
  | ROUND_ROBIN_UNWRAP_FLAG => Permutation (lines input) (flat_map lines pieces)
  | INDIV_FILES => False
  end.

(** [parallel_ok B dir p c i]: running any plan for parallelizer [p] gives what running [c] gives. *)
Definition parallel_ok (B : behaviour) (dir : data_dir) (p : parallelizer) (c : civ) (i : Z) (P : nat -> Prop) (Q : string -> Prop) : Prop :=
  forall s t seed, fresh_plan c t -> arity P t -> Q (s i) -> distributes (p_splitter p) (s i) (map s (parts t)) ->
    evaluates B dir p c s t (run B seed c s).

(** [parallel_wrong]: for some input some plan gives something that running [c] never gives. *)
Definition parallel_wrong (B : behaviour) (dir : data_dir) (p : parallelizer) (c : civ) (i : Z) (P : nat -> Prop) (Q : string -> Prop) : Prop :=
  exists s t r, fresh_plan c t /\ arity P t /\ Q (s i) /\ distributes (p_splitter p) (s i) (map s (parts t)) /\
    evaluates B dir p c s t r /\ forall seed, r <> run B seed c s.

(** ** Invocations of a command *)
(** [c] is an invocation with io variables for [inv]: same command and same names of flags and
    options in the same order. *)
Definition invocation_of (inv : invocation) (c : civ) : Prop :=
  v_cmd c = cmd_name inv /\ map fe_name (v_flags c) = map fo_name (flag_option_list inv).
(** It reads the variable [i] and nothing else as a stream, and has an implicit output; no
    stream is an argument of an option, and there are no [OptionWithIOVar] (see C38). *)
Definition reads_one (c : civ) (i : Z) : Prop :=
  consistent c /\ kept (with_access c STREAM_INPUT) (vars c) [i] /\
  (exists o, v_out c = PVar o /\ kept (with_access c STREAM_OUTPUT) (vars c) [o]) /\
  (forall x, In x (option_args (v_flags c)) -> ~ has c STREAM_INPUT x) /\
  (forall n a, ~ In (FOptVar n a) (v_flags c)).
(** [offered dir inv p]: some call of [get_inferred_parallelizer_list] on the information for
    the invocation returns [p]. *)
Definition offered (dir : data_dir) (inv : invocation) (p : parallelizer) : Prop :=
  exists i k ls i' l, get_parallelizability_info dir inv = Some i /\ calls k i ls i' /\ In l ls /\ In p l.
Definition given (fl : list wflag) (names : list string) : bool := existsb (fun f => mem (wflag_name f) names) fl.

(** The names of flags and options that the parser may return for a command: a specification
    of a command below speaks about these only. *)
Definition known (names : list string) (fl : list wflag) : Prop := Forall (fun f => In (wflag_name f) names) fl.
Definition sort_names : list string :=
  ["-b"; "-d"; "-f"; "-g"; "-i"; "-M"; "-h"; "-n"; "-R"; "-r"; "-V"; "-c"; "-C"; "--debug"; "-m"; "-s"; "-u"; "-z";
   "--help"; "--version"; "--random-source"; "--sort"; "--batch-size"; "--compress-program"; "--files0-from"; "-k"; "-o";
   "-S"; "-t"; "-T"; "--parallel"].
Definition grep_names : list string :=
  ["--help"; "-V"; "-E"; "-F"; "-G"; "-P"; "-i"; "-y"; "--no-ignore-case"; "-v"; "-w"; "-x"; "-c"; "-L"; "-l"; "-o";
   "-q"; "-s"; "-b"; "-H"; "-h"; "-n"; "-T"; "-u"; "-Z"; "--no-group-separator"; "-a"; "-I"; "-r"; "-R";
   "--line-buffered"; "-U"; "-z"; "-e"; "--regexp"; "-f"; "--color"; "--colour"; "-m"; "--max-count"; "--label";
   "-A"; "--after-context"; "-B"; "--before-context"; "-C"; "--context"; "--group-separator"; "--binary-files"; "-D";
   "--devices"; "-d"; "--directories"; "--exclude"; "--exclude-from"; "--exclude-dir"; "--include"].
Definition cut_names : list string :=
  ["-n"; "--complement"; "-s"; "-z"; "--help"; "--version"; "-M"; "-b"; "-c"; "-d"; "-f"; "--output-delimiter"].
Definition tr_names : list string := ["-c"; "-C"; "-d"; "-s"; "-t"; "--help"; "--version"].

(** ** cat *)
Definition is_cat (B : behaviour) : Prop :=
  forall seed ops inputs, inputs <> [] -> B seed "cat" [] ops inputs = joined inputs.

(** ** sort (GNU)
    [key_le]: the comparison of keys, which depends on the flags, and on chance for random
    orders; [help]: the text printed by --help and --version; [marks]: the lines --debug adds. *)
Record sort_oracle : Type := mkSortOracle
  { key_le : nat -> list wflag -> string -> string -> bool;
    sort_help : string;
    sort_marks : list wflag -> string -> list string }.
(** The flags of sort that have to do with the comparison *)
Definition ordering_flags : list string :=
  ["-b"; "-d"; "-f"; "-g"; "-i"; "-M"; "-h"; "-n"; "-R"; "-r"; "--sort"; "-V"; "-k"; "-t"; "--random-source"].
Definition total_preorder (le : string -> string -> bool) : Prop :=
  (forall x y, le x y = true \/ le y x = true) /\ (forall x y z, le x y = true -> le y z = true -> le x z = true).
Definition sort_oracle_ok (o : sort_oracle) : Prop :=
  (forall seed fl, total_preorder (key_le o seed fl)) /\
  (forall seed fl fl', filter (fun f => mem (wflag_name f) ordering_flags) fl = filter (fun f => mem (wflag_name f) ordering_flags) fl' ->
     key_le o seed fl = key_le o seed fl').
(** Byte by byte *)
Definition bytes_le (x y : string) : bool := match String.compare x y with Gt => false | _ => true end.
(** Lines with equal keys are compared byte by byte, unless -s or -u is given *)
Definition line_le (o : sort_oracle) (seed : nat) (fl : list wflag) (x y : string) : bool :=
  if given fl ["-s"; "-u"] then key_le o seed fl x y
  else if key_le o seed fl x y then
         if key_le o seed fl y x then if given fl ["-r"] then bytes_le y x else bytes_le x y else true
       else false.
(** Stable sorting by insertion, merging with preference for the first list *)
Fixpoint insert_line (le : string -> string -> bool) (x : string) (l : list string) : list string :=
  match l with
  | [] => [x]
  | y :: l' => if le x y then x :: l else y :: insert_line le x l'
  end.
Fixpoint sort_lines (le : string -> string -> bool) (l : list string) : list string :=
  match l with [] => [] | x :: l' => insert_line le x (sort_lines le l') end.
Fixpoint merge_lines (le : string -> string -> bool) (l1 : list string) : list string -> list string :=
  fix merge2 (l2 : list string) : list string :=
    match l1, l2 with
    | [], _ => l2
    | _, [] => l1
    | x :: l1', y :: l2' => if le x y then x :: merge_lines le l1' l2 else y :: merge2 l2'
    end.
(** -u: the first of a run of lines with equal keys *)
Fixpoint unique_lines (eq : string -> string -> bool) (l : list string) : list string :=
  match l with
  | [] => []
  | x :: l' => match unique_lines eq l' with
               | y :: r => if eq x y then x :: r else x :: y :: r
               | [] => [x]
               end
  end.
Definition sort_output (o : sort_oracle) (seed : nat) (fl : list wflag) (inputs : list string) : string :=
  if given fl ["--help"; "--version"] then sort_help o
  else if given fl ["-c"; "-C"] then ""
  else
    let sep := if given fl ["-z"] then nul else newline in
    let le := line_le o seed fl in
    let l := if given fl ["-m"] then fold_right (merge_lines le) [] (map (records sep) inputs)
             else sort_lines le (flat_map (records sep) inputs) in
    let l := if given fl ["-u"] then unique_lines (fun x y => key_le o seed fl x y && key_le o seed fl y x) l else l in
    terminated sep (if given fl ["--debug"] then flat_map (fun x => x :: sort_marks o fl x) l else l).
Definition is_sort (o : sort_oracle) (B : behaviour) : Prop :=
  forall seed fl ops inputs, known sort_names fl -> given fl ["--files0-from"; "-o"] = false ->
    B seed "sort" fl ops inputs = sort_output o seed fl inputs.

(** Flags with which sort does not sort its input to its output *)
Definition sort_never : list string := ["--help"; "--version"; "--debug"; "-o"].

(** ** Commands that treat every record by itself *)
Definition per_line (f : string -> list string) (inputs : list string) : string :=
  unlines (flat_map f (flat_map lines inputs)).
(** [is_record_wise]: what a command like cut does: one output per record of the only input.
    [f]: the output for a record. *)
Record wise_oracle : Type := mkWise
  { wise_record : list wflag -> list word -> string -> list string; wise_help : list wflag -> string }.
Definition wise_output (o : wise_oracle) (fl : list wflag) (ops : list word) (input : string) : string :=
  if given fl ["--help"; "--version"] then wise_help o fl
  else let sep := if given fl ["-z"] then nul else newline in
       terminated sep (flat_map (wise_record o fl ops) (records sep input)).
Definition is_record_wise (o : wise_oracle) (cmd : string) (names : list string) (B : behaviour) : Prop :=
  forall seed fl ops input, known names fl -> B seed cmd fl ops [input] = wise_output o fl ops input.

(** ** grep (GNU), on text: without NUL characters unless -a or -z is given; with -H the name
    of the input is printed, which [run] does not tell. *)
Fixpoint has_char (a : ascii) (s : string) : bool :=
  match s with "" => false | String b s' => Ascii.eqb a b || has_char a s' end.
Definition is_text (s : string) : Prop := has_char nul s = false.
(** [grep_match]: does the line match; [grep_show]: what is printed for a line (several lines
    with -o), given its number and offset if asked for, and whether it is selected or context;
    [grep_between]: what is printed between groups of lines; [grep_label]: the name printed by -l and -L. *)
Record grep_oracle : Type := mkGrepOracle
  { grep_match : list wflag -> list word -> string -> bool;
    grep_show : list wflag -> list word -> option nat -> option nat -> bool -> string -> list string;
    grep_between : list wflag -> list string;
    grep_label : list wflag -> string;
    grep_count : list wflag -> nat -> string;
    grep_help : string }.
(** Decimal numerals *)
Definition number (s : string) : nat :=
  fold_left (fun n a => 10 * n + (nat_of_ascii a - 48)) (list_ascii_of_string s) 0.
(** The argument of the last of the options *)
Definition last_number (fl : list wflag) (names : list string) : option nat :=
  fold_left (fun r f => match f with
                        | WOption n (WText s) => if mem n names then Some (number s) else r
                        | _ => r
                        end) fl None.
Definition or_number (a : option nat) (b : option nat) : nat :=
  match a, b with Some n, _ => n | None, Some n => n | None, None => 0 end.
Definition after (fl : list wflag) : nat :=
  or_number (last_number fl ["-A"; "--after-context"]) (last_number fl ["-C"; "--context"]).
Definition before (fl : list wflag) : nat :=
  or_number (last_number fl ["-B"; "--before-context"]) (last_number fl ["-C"; "--context"]).
(** Only the first [n] selected lines *)
Fixpoint at_most (n : option nat) (l : list bool) : list bool :=
  match l with
  | [] => []
  | false :: l' => false :: at_most n l'
  | true :: l' => match n with
                  | None => true :: at_most None l'
                  | Some 0 => false :: at_most n l'
                  | Some (S m) => true :: at_most (Some m) l'
                  end
  end.
(** Line [j] is selected or close to a selected line. *)
Definition printed (b a : nat) (sel : list bool) (j : nat) : bool :=
  existsb (fun k => nth k sel false && Nat.leb j (k + a) && Nat.leb k (j + b)) (seq 0 (length sel)).
(** [previous]: [None]: nothing printed so far; [Some true]: the previous line was printed *)
Fixpoint print_lines (show : nat -> nat -> bool -> string -> list string) (between : list string)
    (b a : nat) (sel : list bool) (j offset : nat) (previous : option bool) (l : list string) : list string :=
  match l with
  | [] => []
  | x :: l' =>
      if printed b a sel j then
        (match previous with Some false => between | _ => [] end) ++ show j offset (nth j sel false) x ++
        print_lines show between b a sel (S j) (offset + String.length x + 1) (Some true) l'
      else
        print_lines show between b a sel (S j) (offset + String.length x + 1)
          (match previous with None => None | _ => Some false end) l'
  end.
Definition grep_output (o : grep_oracle) (fl : list wflag) (ops : list word) (input : string) : string :=
  if given fl ["--help"; "-V"] then grep_help o
  else
    let sep := if given fl ["-z"] then nul else newline in
    let l := records sep input in
    let sel := at_most (last_number fl ["-m"; "--max-count"])
                 (map (fun x => xorb (given fl ["-v"]) (grep_match o fl ops x)) l) in
    if given fl ["-q"] then ""
    else if given fl ["-l"] then (if existsb (fun x => x) sel then grep_label o fl else "")
    else if given fl ["-L"] then (if existsb (fun x => x) sel then "" else grep_label o fl)
    else if given fl ["-c"] then grep_count o fl (length (filter (fun x => x) sel))
    else
      let show j offset := grep_show o fl ops (if given fl ["-n"] then Some (S j) else None)
                                              (if given fl ["-b"] then Some offset else None) in
      let between := if Nat.eqb (before fl + after fl) 0 then [] else grep_between o fl in
      terminated sep (print_lines show between (before fl) (after fl) sel 0 0 None l).
Definition is_grep (o : grep_oracle) (B : behaviour) : Prop :=
  forall seed fl ops input, known grep_names fl -> given fl ["-r"; "-R"; "-H"] = false ->
    is_text input \/ given fl ["-a"; "-z"] = true ->
    B seed "grep" fl ops [input] = grep_output o fl ops input.
(** Flags with which grep does not work line by line, or prints something else *)
Definition grep_unsafe : list string :=
  ["-m"; "--max-count"; "-A"; "--after-context"; "-B"; "--before-context"; "-C"; "--context"; "-z"; "--help"; "-V";
   "-r"; "-R"; "-H"].

(** ** tr
    [tr_set]: the characters of a set; [tr_char]: the image of a character under a
    translation from one set to another, given whether -c and -t are given. *)
Record tr_oracle : Type := mkTrOracle
  { tr_set : string -> ascii -> bool; tr_char : bool -> bool -> string -> string -> ascii -> ascii; tr_help : string }.
Fixpoint keep_chars (p : ascii -> bool) (s : string) : string :=
  match s with "" => "" | String a s' => if p a then String a (keep_chars p s') else keep_chars p s' end.
Fixpoint map_chars (f : ascii -> ascii) (s : string) : string :=
  match s with "" => "" | String a s' => String (f a) (map_chars f s') end.
(** Runs of the same character in [q] become one character. *)
Fixpoint squeeze_from (last : option ascii) (q : ascii -> bool) (s : string) : string :=
  match s with
  | "" => ""
  | String a s' =>
      if q a && match last with Some b => Ascii.eqb a b | None => false end
      then squeeze_from last q s' else String a (squeeze_from (Some a) q s')
  end.
Definition squeeze : (ascii -> bool) -> string -> string := squeeze_from None.
(** What is deleted, how characters are translated and what is squeezed *)
Definition tr_deletes (o : tr_oracle) (fl : list wflag) (ops : list word) (a : ascii) : bool :=
  match ops with
  | WText s :: _ => given fl ["-d"] && xorb (given fl ["-c"; "-C"]) (tr_set o s a)
  | _ => false
  end.
Definition tr_image (o : tr_oracle) (fl : list wflag) (ops : list word) (a : ascii) : ascii :=
  match ops with
  | [WText s; WText t] => if given fl ["-d"] then a else tr_char o (given fl ["-c"; "-C"]) (given fl ["-t"]) s t a
  | _ => a
  end.
Definition tr_squeezes (o : tr_oracle) (fl : list wflag) (ops : list word) (a : ascii) : bool :=
  given fl ["-s"] &&
  match ops with
  | [WText s] => xorb (given fl ["-c"; "-C"]) (tr_set o s a)
  | [WText _; WText t] => tr_set o t a
  | _ => false
  end.
Definition tr_output (o : tr_oracle) (fl : list wflag) (ops : list word) (input : string) : string :=
  if given fl ["--help"; "--version"] then tr_help o
  else squeeze (tr_squeezes o fl ops)
         (map_chars (tr_image o fl ops) (keep_chars (fun a => negb (tr_deletes o fl ops a)) input)).
Definition is_tr (o : tr_oracle) (B : behaviour) : Prop :=
  forall seed fl ops input, known tr_names fl -> B seed "tr" fl ops [input] = tr_output o fl ops input.
(** What makes the concatenation right *)
Definition tr_safe (o : tr_oracle) (fl : list wflag) (ops : list word) : Prop :=
  (given fl ["--help"; "--version"] = false \/ tr_help o = "") /\
  ((forall a, tr_deletes o fl ops a = false -> tr_squeezes o fl ops (tr_image o fl ops a) = false) \/
   (tr_deletes o fl ops newline = false /\ tr_squeezes o fl ops (tr_image o fl ops newline) = false) \/
   given fl ["--help"; "--version"] = true).
