(** * Model of the parallelizability generators
    (annotation_generation/annotation_generators/ParallelizabilityInfoGenerator*.py) and of
    annotation_generation/AnnotationGeneration.py:82-94 *)
Require Import Verif.PyBase Verif.JsonData Verif.Parser Verif.IOGen Verif.IOVars Verif.Transformers Verif.ParaTypes.

(** ** ParallelizabilityInfoGenerator_Interface.py *)

(** A [generate_info] method: reads the invocation and extends the information.
    [dir] is needed by the generators that call [parse]. *)
Definition pgen : Type := data_dir -> invocation -> para_info -> result para_info.

Definition append_new (s : splitter) (a : option agg_spec) (i : para_info) : result para_info :=
  let! p := make_parallelizer s None a None 0 in Ok (append_to_parallelizer_list p i).
(** ParallelizabilityInfoGenerator_Interface.py:43-45, 52-54 *)
Definition cc_seq_conc : para_info -> result para_info := append_new CONSEC_CHUNKS None.
Definition rr_seq_conc : para_info -> result para_info := append_new ROUND_ROBIN_PLAIN None.
(** ParallelizabilityInfoGenerator_Interface.py:47-50, 56-59 *)
Definition cc_seq_adjm : para_info -> result para_info :=
  append_new CONSEC_CHUNKS (Some make_aggregator_spec_adj_lines_merge).
Definition rr_seq_adjm : para_info -> result para_info :=
  append_new ROUND_ROBIN_PLAIN (Some make_aggregator_spec_adj_lines_merge).
(** ParallelizabilityInfoGenerator_Interface.py:66-69, 61-64 *)
Definition cc_seq_adjs : para_info -> result para_info :=
  append_new CONSEC_CHUNKS (Some make_aggregator_spec_adj_lines_seq).
Definition rr_seq_adjs : para_info -> result para_info :=
  append_new ROUND_ROBIN_PLAIN (Some make_aggregator_spec_adj_lines_seq).
(** ParallelizabilityInfoGenerator_Interface.py:76-79, 71-74 *)
Definition cc_seq_adjf (f : string) (impl : bool) : para_info -> result para_info :=
  append_new CONSEC_CHUNKS (Some (make_aggregator_spec_from_string ADJ_LINES_FUNC f impl)).
Definition rr_seq_adjf (f : string) (impl : bool) : para_info -> result para_info :=
  append_new ROUND_ROBIN_PLAIN (Some (make_aggregator_spec_from_string ADJ_LINES_FUNC f impl)).

(** ** Conditions on operands *)

(** [sub in s] *)
Definition str_in (sub s : string) : bool :=
  match String.index 0 sub s with Some _ => true | None => false end.
(** [s.find(sub) > 0] *)
Definition find_positive (sub s : string) : bool :=
  match String.index 0 sub s with Some (S _) => true | _ => false end.
(** datatypes/BasicDatatypes.py:112-114 (raw string: backslash, n) *)
Definition contains_new_line (operand : string) : bool := find_positive "\n" operand.
(** datatypes/BasicDatatypes.py:116-118 (raw string: backslash, 0) *)
Definition contains_null_char (operand : string) : bool := find_positive "\0" operand.
(** Generator_Interface.py:38-40 *)
Definition does_first_operand_start_with (inv : invocation) (s : string) : result bool :=
  let! n := get_first_operand_name inv in Ok (String.prefix s n).
(** Generator_Interface.py:42-44 *)
Definition does_first_operand_contain (inv : invocation) (s : string) : result bool :=
  let! n := get_first_operand_name inv in Ok (str_in s n).

(** [a and b()], [a or b()] with calls that may raise *)
Definition and_then (a : result bool) (b : result bool) : result bool :=
  let! x := a in if x then b else Ok false.
Definition or_else (a : result bool) (b : result bool) : result bool :=
  let! x := a in if x then Ok true else b.

(** ** The [generate_info] methods *)

(** ParallelizabilityInfoGeneratorAltBigramsAux.py:11-15 *)
Definition pg_alt_bigrams_aux : pgen := fun dir inv i =>
  let! m := make_mapper_spec_custom_from_string dir "alt_bigrams_aux" true in
  let a := make_aggregator_spec_from_string CUSTOM_2_ARY "alt_bigram_aux_reduce" true in
  let! p := make_parallelizer CONSEC_CHUNKS (Some m) (Some a) None 0 in
  Ok (append_to_parallelizer_list p i).

(** ParallelizabilityInfoGeneratorBigramsAux.py:10-15 *)
Definition pg_bigrams_aux : pgen := fun dir inv i =>
  let! m := make_mapper_spec_custom_from_string dir "bigram_aux_map" true in
  let a := make_aggregator_spec_from_string CUSTOM_2_ARY "bigram_aux_reduce" true in
  let! p := make_parallelizer CONSEC_CHUNKS (Some m) (Some a) None 0 in
  let p := mkPar (p_splitter p) (p_mapper p) (p_aggregator p) (p_info_splitter_mapper p) 2 in
  Ok (append_to_parallelizer_list p i).

(** ParallelizabilityInfoGenerator{Col:5-7,CustomTr:6-8,Cut:10-12,Xargs:5-8}.py *)
Definition pg_stateless : pgen := fun dir inv i =>
  let! i := cc_seq_conc i in rr_seq_conc i.

(** ParallelizabilityInfoGeneratorSetDiff.py:5-6 *)
Definition pg_set_diff : pgen := fun dir inv i => cc_seq_conc i.

(** ParallelizabilityInfoGeneratorSort.py:15-29, ParallelizabilityInfoGeneratorCustomSort.py:13-28 *)
Definition sort_transformer : transformer :=
  TChain [TFilter ["-b"; "-d"; "-f"; "-g"; "-i"; "-M"; "-h"; "-n"; "-r"; "--sort"; "-V"; "-k"; "-t"];
          TAdd [FFlag "-m"]].
Definition pg_sort : pgen := fun dir inv i =>
  let i := set_commutative i in
  if contains_one_of inv ["-c"; "-C"; "-u"; "-z"; "-R"; "-s"; "-m"; "--files0-from"; "--random-source"]
  then Ok i
  else
    append_new CONSEC_CHUNKS (Some (make_aggregator_spec_from_transformers CUSTOM_2_ARY (Some sort_transformer) true)) i.

(** ParallelizabilityInfoGeneratorTestOne.py:10-13, ParallelizabilityInfoGeneratorTestTwo.py:10-13 *)
Definition pg_test : pgen := fun dir inv i =>
  append_new CONSEC_CHUNKS (Some (make_aggregator_spec_from_string CUSTOM_N_ARY "runtime/agg/opt/concat.sh" false)) i.

(** ParallelizabilityInfoGeneratorTr.py:44-52 *)
Definition does_last_set_effectively_contain_newline (inv : invocation) : result bool :=
  match operand_list inv with
  | [] => Raise IndexError
  | o :: l =>
      let last_operand := last l o in
      let has_nl := contains_new_line last_operand in
      let has_null := contains_null_char last_operand in
      if Nat.eqb (length (operand_list inv)) 1 && contains_one_of inv ["-c"]
      then Ok (negb (has_nl || has_null))
      else Ok (has_nl || has_null)
  end.
(** ParallelizabilityInfoGeneratorTr.py:19-42 *)
Definition pg_tr : pgen := fun dir inv i =>
  let! deletes := and_then (Ok (contains_one_of inv ["-d"])) (does_last_set_effectively_contain_newline inv) in
  let! squeezes := and_then (Ok (contains_one_of inv ["-s"])) (does_last_set_effectively_contain_newline inv) in
  if deletes then let! i := cc_seq_adjm i in rr_seq_adjm i
  else if squeezes then
    let! i := cc_seq_adjf "PLACEHOLDER: remove first line if empty" false i in
    rr_seq_adjf "PLACEHOLDER: remove first line if empty" false i
  else let! i := cc_seq_conc i in rr_seq_conc i.

(** ParallelizabilityInfoGeneratorUniq.py:21-34 *)
Definition pg_uniq : pgen := fun dir inv i =>
  if negb (contains_one_of inv ["-d"; "-D"; "--all-repeated"]) then
    if contains_one_of inv ["-c"] then
      let a := make_aggregator_spec_from_string ADJ_LINES_FUNC "PLACEHOLDER:uniq_merge_count_uniq" false in
      let! cc := make_parallelizer CONSEC_CHUNKS None (Some a) None 0 in
      let! rr := make_parallelizer ROUND_ROBIN_PLAIN None (Some a) None 0 in
      Ok (append_to_parallelizer_list rr (append_to_parallelizer_list cc i))
    else let! i := cc_seq_adjs i in rr_seq_adjs i
  else Ok i.

(** ParallelizabilityInfoGeneratorSed.py:10-16 *)
Definition pg_sed : pgen := fun dir inv i =>
  let! b := or_else (or_else (does_first_operand_start_with inv "-") (does_first_operand_start_with inv "s"))
                    (let! x := or_else (does_first_operand_contain inv "d") (does_first_operand_contain inv "q") in
                     Ok (negb x)) in
  if b then let! i := cc_seq_conc i in rr_seq_conc i else Ok i.

(** ParallelizabilityInfoGeneratorGrep.py:33-57: the case analysis, as the three local
    variables [mapper_spec], [aggregator_spec], [add_info_from_splitter] *)
Definition grep_cases (inv : invocation)
  : result (option mapper_spec * option agg_spec * option add_info) :=
  if negb (contains_one_of inv ["-A"; "-B"; "-C"; "-m"]) then
    if contains_one_of inv ["-L"; "-l"] then
      Ok (None, Some (make_aggregator_spec_from_string CUSTOM_2_ARY "PLACEHOLDER:merge_keeping_longer_output" false), None)
    else if contains_one_of inv ["-c"] then
      Ok (None, Some (make_aggregator_spec_from_string CUSTOM_2_ARY "PLACEHOLDER:sum_indiv_results_up" false), None)
    else if contains_one_of inv ["-n"] && contains_one_of inv ["-b"] then
      let! m := make_mapper_spec_custom "PLACEHOLDER:grep_add_line_number_and_byte_offset" None false in
      Ok (Some m, None, Some LINE_NUM_AND_BYTE_OFFSET)
    else if contains_one_of inv ["-n"] then
      let! m := make_mapper_spec_custom "PLACEHOLDER:grep_add_line_number_offset" None false in
      Ok (Some m, None, Some LINE_NUM_OFFSET)
    else if contains_one_of inv ["-b"] then
      let! m := make_mapper_spec_custom "PLACEHOLDER:grep_add_byte_offset" None false in
      Ok (Some m, None, Some BYTE_OFFSET)
    else Ok (None, None, None)
  else Ok (None, None, None).
(** ParallelizabilityInfoGeneratorGrep.py:25-71 *)
Definition pg_grep : pgen := fun dir inv i =>
  if negb (contains_one_of inv ["-q"]) then
    let! (m, a, info) := grep_cases inv in
    if (match m with None => true | Some m => ms_is_implemented m end) &&
       (match a with None => true | Some a => agg_is_implemented a end)
    then
      let! cc := make_parallelizer CONSEC_CHUNKS m a info 0 in
      let! rr := make_parallelizer ROUND_ROBIN_PLAIN m a info 0 in
      Ok (append_to_parallelizer_list rr (append_to_parallelizer_list cc i))
    else Ok i
  else Ok i.

(** ** AnnotationGeneration.py *)

(** The classes ParallelizabilityInfoGeneratorXxx imported by AnnotationGeneration.py:58-65,
    that is, the files that exist. *)
Definition para_generator_classes : dict pgen :=
  [("AltBigramsAux", pg_alt_bigrams_aux); ("BigramsAux", pg_bigrams_aux); ("Col", pg_stateless);
   ("CustomSort", pg_sort); ("CustomTr", pg_stateless); ("Cut", pg_stateless); ("Grep", pg_grep);
   ("Sed", pg_sed); ("SetDiff", pg_set_diff); ("Sort", pg_sort); ("TestOne", pg_test);
   ("TestTwo", pg_test); ("Tr", pg_tr); ("Uniq", pg_uniq); ("Xargs", pg_stateless)].

(** AnnotationGeneration.py:82-94 *)
Definition get_parallelizability_info (dir : data_dir) (inv : invocation) : option para_info :=
  except_none
    (let! g := dict_get para_generator_classes (representation_of (cmd_name inv)) in
     g dir inv new_para_info).
