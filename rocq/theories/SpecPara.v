(** * Specification of parallelizability information *)
Require Export Verif.SpecLists.
Require Import Verif.PyBase Verif.JsonData Verif.Parser Verif.Access Verif.IOVars Verif.Transformers Verif.ParaTypes
  Verif.ParaGen Verif.SpecParser Verif.SpecIO.

(** ** Parallelizers by name *)
Definition seq_mapper : mapper_spec := mkMapperSpec SAME_AS_SEQ None TSeq true.
Definition custom_mapper (cmd : string) (flags : list flag_el) : mapper_spec :=
  mkMapperSpec CUSTOM (Some cmd) (TCustom flags) true.
Definition concat : agg_spec := AggNonFunc CONCATENATE true.
Definition adj_merge : agg_spec := AggNonFunc ADJ_LINES_MERGE false.
Definition adj_seq : agg_spec := AggNonFunc ADJ_LINES_SEQ false.
(** consecutive chunks, or round robin, with the original command as mapper *)
Definition chunks (a : agg_spec) : parallelizer := mkPar CONSEC_CHUNKS seq_mapper a NO_ADD_INPUT 0.
Definition round_robin (a : agg_spec) : parallelizer := mkPar ROUND_ROBIN_PLAIN seq_mapper a NO_ADD_INPUT 0.
(** both splitters *)
Definition stateless (a : agg_spec) : list parallelizer := [chunks a; round_robin a].

Definition uses_any (inv : invocation) (names : list string) : Prop := exists n, In n names /\ uses inv n.

(** ** Text of operands *)
Definition starts_with (sub s : string) : Prop := exists b, s = sub +++ b.
Definition occurs (sub s : string) : Prop := exists a b, s = a +++ sub +++ b.

(** What the generator of tr recognises: the escape occurs, but not at the very start. *)
Definition recognised (esc s : string) : Prop := occurs esc s /\ ~ starts_with esc s.
Definition recognised_newline (set : string) : Prop := recognised "\n" set \/ recognised "\0" set.
(** What tr acts on with -d or -s, as recognised: the complement of the only set with -c,
    the last set otherwise. *)
Inductive acts_on_newline (inv : invocation) : Prop :=
| acts_complement set :
    operand_list inv = [set] -> uses inv "-c" -> ~ recognised_newline set -> acts_on_newline inv
| acts_single set :
    operand_list inv = [set] -> ~ uses inv "-c" -> recognised_newline set -> acts_on_newline inv
| acts_last sets set :
    operand_list inv = sets ++ [set] -> sets <> [] -> recognised_newline set -> acts_on_newline inv.

(** sed scripts taken to be per-line *)
Definition per_line_script (script : string) : Prop :=
  starts_with "-" script \/ starts_with "s" script \/ ~ (occurs "d" script \/ occurs "q" script).

(** sort: flags that change what is printed or compared in a way a merge does not reproduce *)
Definition sort_excluded : list string :=
  ["-c"; "-C"; "-u"; "-z"; "-R"; "-s"; "-m"; "--files0-from"; "--random-source"].
(** sort: flags that determine the order *)
Definition sort_order_flags : list string :=
  ["-b"; "-d"; "-f"; "-g"; "-i"; "-M"; "-h"; "-n"; "-r"; "--sort"; "-V"; "-k"; "-t"].
Definition sort_merge : agg_spec :=
  AggTransformer CUSTOM_2_ARY (TChain [TFilter sort_order_flags; TAdd [FFlag "-m"]]) true.

(** The commands with parallelizability information. *)
Definition para_commands : list string :=
  ["alt_bigrams_aux"; "bigrams_aux"; "col"; "custom_sort"; "custom_tr"; "cut"; "grep"; "sed"; "set_diff";
   "sort"; "test_one"; "test_two"; "tr"; "uniq"; "xargs"].

(** ** The table
    [annotated dir inv None]: no information; [annotated dir inv (Some (l, b))]: the
    parallelizers [l], the command being commutative iff [b]. *)
Inductive annotated (dir : data_dir) (inv : invocation) : option (list parallelizer * bool) -> Prop :=
| an_unknown : ~ In (cmd_name inv) para_commands -> annotated dir inv None
| an_stateless : In (cmd_name inv) ["col"; "custom_tr"; "cut"; "xargs"] ->
    annotated dir inv (Some (stateless concat, false))
| an_set_diff : cmd_name inv = "set_diff" ->
    annotated dir inv (Some ([chunks concat], false))
| an_test : In (cmd_name inv) ["test_one"; "test_two"] ->
    annotated dir inv (Some ([chunks (AggString CUSTOM_N_ARY "runtime/agg/opt/concat.sh" false)], false))
| an_sort : In (cmd_name inv) ["sort"; "custom_sort"] -> ~ uses_any inv sort_excluded ->
    annotated dir inv (Some ([chunks sort_merge], true))
| an_sort_excluded : In (cmd_name inv) ["sort"; "custom_sort"] -> uses_any inv sort_excluded ->
    annotated dir inv (Some ([], true))
| an_uniq_repeated : cmd_name inv = "uniq" -> uses_any inv ["-d"; "-D"; "--all-repeated"] ->
    annotated dir inv (Some ([], false))
| an_uniq_count : cmd_name inv = "uniq" -> ~ uses_any inv ["-d"; "-D"; "--all-repeated"] -> uses inv "-c" ->
    annotated dir inv
      (Some (stateless (AggString ADJ_LINES_FUNC "PLACEHOLDER:uniq_merge_count_uniq" false), false))
| an_uniq : cmd_name inv = "uniq" -> ~ uses_any inv ["-d"; "-D"; "--all-repeated"; "-c"] ->
    annotated dir inv (Some (stateless adj_seq, false))
| an_sed_missing : cmd_name inv = "sed" -> operand_list inv = [] -> annotated dir inv None
| an_sed script rest : cmd_name inv = "sed" -> operand_list inv = script :: rest -> per_line_script script ->
    annotated dir inv (Some (stateless concat, false))
| an_sed_not script rest : cmd_name inv = "sed" -> operand_list inv = script :: rest -> ~ per_line_script script ->
    annotated dir inv (Some ([], false))
| an_grep_quiet : cmd_name inv = "grep" -> uses inv "-q" -> annotated dir inv (Some ([], false))
| an_grep_whole_input : cmd_name inv = "grep" -> ~ uses_any inv ["-A"; "-B"; "-C"; "-m"] ->
    uses_any inv ["-L"; "-l"; "-c"; "-n"; "-b"] -> annotated dir inv (Some ([], false))
| an_grep : cmd_name inv = "grep" -> ~ uses inv "-q" ->
    uses_any inv ["-A"; "-B"; "-C"; "-m"] \/ ~ uses_any inv ["-L"; "-l"; "-c"; "-n"; "-b"] ->
    annotated dir inv (Some (stateless concat, false))
| an_tr_missing : cmd_name inv = "tr" -> uses_any inv ["-d"; "-s"] -> operand_list inv = [] ->
    annotated dir inv None
| an_tr_delete : cmd_name inv = "tr" -> uses inv "-d" -> acts_on_newline inv ->
    annotated dir inv (Some (stateless adj_merge, false))
| an_tr_squeeze : cmd_name inv = "tr" -> ~ uses inv "-d" -> uses inv "-s" -> acts_on_newline inv ->
    annotated dir inv (Some (stateless (AggString ADJ_LINES_FUNC "PLACEHOLDER: remove first line if empty" false), false))
| an_tr_other : cmd_name inv = "tr" -> ~ uses_any inv ["-d"; "-s"] ->
    annotated dir inv (Some (stateless concat, false))
| an_tr_not_newline : cmd_name inv = "tr" -> operand_list inv <> [] -> ~ acts_on_newline inv ->
    annotated dir inv (Some (stateless concat, false))
| an_alt_bigrams j : cmd_name inv = "alt_bigrams_aux" -> loads dir "alt_bigrams_aux" j ->
    annotated dir inv
      (Some ([mkPar CONSEC_CHUNKS (custom_mapper "alt_bigrams_aux" [])
                (AggString CUSTOM_2_ARY "alt_bigram_aux_reduce" true) NO_ADD_INPUT 0], false))
| an_alt_bigrams_none : cmd_name inv = "alt_bigrams_aux" -> (forall j, ~ loads dir "alt_bigrams_aux" j) ->
    annotated dir inv None
| an_bigrams j : cmd_name inv = "bigrams_aux" -> loads dir "bigram_aux_map" j ->
    annotated dir inv
      (Some ([mkPar CONSEC_CHUNKS (custom_mapper "bigram_aux_map" [])
                (AggString CUSTOM_2_ARY "bigram_aux_reduce" true) NO_ADD_INPUT 2], false))
| an_bigrams_none : cmd_name inv = "bigrams_aux" -> (forall j, ~ loads dir "bigram_aux_map" j) ->
    annotated dir inv None.

(** ** Inferred parallelizers *)
Definition with_splitter (s : splitter) (p : parallelizer) : parallelizer :=
  mkPar s (p_mapper p) (p_aggregator p) (p_info_splitter_mapper p) (p_info_mapper_aggregator p).
(** [chunk_copies l l']: [l'] has one copy with the unwrapping round-robin splitter for each
    consecutive-chunks element of [l], in the same order. *)
Inductive chunk_copies : list parallelizer -> list parallelizer -> Prop :=
| cc_nil : chunk_copies [] []
| cc_chunks p l l' : p_splitter p = CONSEC_CHUNKS -> chunk_copies l l' ->
    chunk_copies (p :: l) (with_splitter ROUND_ROBIN_UNWRAP_FLAG p :: l')
| cc_other p l l' : p_splitter p <> CONSEC_CHUNKS -> chunk_copies l l' -> chunk_copies (p :: l) l'.

(** Everything that can be built without changing attributes afterwards. *)
Inductive buildable : parallelizer -> Prop :=
| build_new s m a i n p : new_parallelizer s m a i n = Ok p -> buildable p
| build_unwrap p : buildable p -> buildable (make_parallelizer_round_robin_with_unwrap_from_other p).

Definition order_insensitive (k : agg_kind) : Prop :=
  k = CONCATENATE \/ k = ADJ_LINES_MERGE \/ k = ADJ_LINES_SEQ \/ k = ADJ_LINES_FUNC.

(** ** Transformers *)
Definition named (names : list string) (x : flag_el) : Prop := In (fe_name x) names.

(** Elements that Python compares by value: [OptionWithIOVar] is compared by identity. *)
Definition comparable (x : flag_el) : Prop := match x with FOptVar _ _ => False | _ => True end.

(** What a transformer may add: the elements listed in it. *)
Fixpoint mentions (t : transformer) (x : flag_el) : Prop :=
  match t with
  | TAdd l => In x l
  | TCustom l => In x l
  | TChain ts => (fix any (ts : list transformer) : Prop :=
                    match ts with [] => False | t' :: ts' => mentions t' x \/ any ts' end) ts
  | _ => False
  end.

(** [runs ts l l']: applying the transformers [ts], the first one first, leads from [l] to [l']. *)
Inductive runs : list transformer -> list flag_el -> list flag_el -> Prop :=
| runs_nil l : runs [] l l
| runs_cons t ts l l' : runs ts (transform t l) l' -> runs (t :: ts) l l'.

(** ** Lists *)

(** [first_occ l l']: [l'] lists the elements of [l] at their first occurrence. *)
Inductive first_occ {A} : list A -> list A -> Prop :=
| fo_nil : first_occ [] []
| fo_again l l' x : first_occ l l' -> In x l -> first_occ (l ++ [x]) l'
| fo_first l l' x : first_occ l l' -> ~ In x l -> first_occ (l ++ [x]) (l' ++ [x]).

(** [get_inferred_parallelizer_list] called on [i] comes to an end, returns [l] and leaves
    the object as [i']. *)
Definition inferring (i : para_info) (l : list parallelizer) (i' : para_info) : Prop :=
  exists n, forall fuel, n <= fuel -> get_inferred_parallelizer_list fuel i = Some (i', l).

(** [calls k i ls i']: [k] calls one after the other return the lists [ls]. *)
Inductive calls : nat -> para_info -> list (list parallelizer) -> para_info -> Prop :=
| calls_0 i : calls 0 i [] i
| calls_S k i l i' ls i'' : inferring i l i' -> calls k i' ls i'' -> calls (S k) i (l :: ls) i''.
