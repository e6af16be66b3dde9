(** * The generator of parallelizability information for grep, with the identity of objects
    ParaGen.v describes the values.  Simplification: the flags of the invocation are tested on the
    value of the invocation; the tests change no object (HeapGenerators.v has them on objects). *)
From Coq Require Import ZArith.
Require Import Verif.PyBase Verif.JsonData Verif.Parser Verif.IOGen Verif.ParaTypes Verif.ParaGen Verif.Heap Verif.HeapInfer Verif.HeapPara.

(** util.py:51-55: [return_default_if_none_else_itself] *)
Definition default_if_none (v d : hval) : hval := match v with HNone => d | _ => v end.
(** Parallelizer.py:105-121 and 128-135 with all arguments.  Simplification: the constructor
    (:31-50) sets the default for [info_splitter_mapper] before a given one. *)
Definition make_parallelizer_with_h (s : splitter) (mapper_spec aggregator_spec info : hval) : hm hval :=
  run! m := make_mapper_spec_seq_h in
  run! d := make_aggregator_spec_concatenate_h in
  run! sp := new_splitter_h s in
  run! p := new_parallelizer_h sp (default_if_none mapper_spec m) (default_if_none aggregator_spec d) in
  run! _ := match info with HNone => hret tt | _ => set_attr p "info_splitter_mapper" info end in
  hret p.
(** MapperSpec.py:107-121 with the constructor, :26-46; the transformer is the default *)
Definition make_mapper_spec_custom_h (cmd : string) (is_implemented : bool) : hm hval :=
  run! t := make_transformer_same_as_seq_h in
  alloc (OInst "MapperSpec" [("kind", HStr "custom"); ("spec_mapper_cmd_name", HStr cmd); ("flag_option_list_transformer", t); ("is_implemented", py_bool is_implemented)]).
(** AggregatorSpec.py:134-139 *)
Definition make_aggregator_spec_custom_2_ary_from_string_representation_h (f : string) (is_implemented : bool) : hm hval :=
  alloc (OInst "AggregatorSpecFuncStringRepresentation" [("kind", HKind CUSTOM_2_ARY); ("is_implemented", py_bool is_implemented); ("cmd_inv_as_str", HStr f)]).
(** [spec is None or spec.is_implemented] *)
Definition none_or_implemented_h (spec : hval) : hm bool :=
  match spec with
  | HNone => hret true
  | _ => run! b := get_attr spec "is_implemented" in hret (truthy b)
  end.
(** ParallelizabilityInfoGeneratorGrep.py:30-58 *)
Definition grep_cases_h (inv : invocation) : hm (hval * hval * hval) :=
  if negb (contains_one_of inv ["-A"; "-B"; "-C"; "-m"]) then
    if contains_one_of inv ["-L"; "-l"] then
      run! a := make_aggregator_spec_custom_2_ary_from_string_representation_h "PLACEHOLDER:merge_keeping_longer_output" false in hret (HNone, a, HNone)
    else if contains_one_of inv ["-c"] then
      run! a := make_aggregator_spec_custom_2_ary_from_string_representation_h "PLACEHOLDER:sum_indiv_results_up" false in hret (HNone, a, HNone)
    else if contains_one_of inv ["-n"] && contains_one_of inv ["-b"] then
      run! m := make_mapper_spec_custom_h "PLACEHOLDER:grep_add_line_number_and_byte_offset" false in hret (m, HNone, HStr "line_num_and_byte_offset")
    else if contains_one_of inv ["-n"] then
      run! m := make_mapper_spec_custom_h "PLACEHOLDER:grep_add_line_number_offset" false in hret (m, HNone, HStr "line_num_offset")
    else if contains_one_of inv ["-b"] then
      run! m := make_mapper_spec_custom_h "PLACEHOLDER:grep_add_byte_offset" false in hret (m, HNone, HStr "byte_offset")
    else hret (HNone, HNone, HNone)
  else hret (HNone, HNone, HNone).
(** ParallelizabilityInfoGeneratorGrep.py:25-71 *)
Definition grep_generate_info_h (inv : invocation) (self : hval) : hm unit :=
  if negb (contains_one_of inv ["-q"]) then
    run! c := grep_cases_h inv in
    let '(m, a, info) := c in
    run! x := none_or_implemented_h m in
    run! y := if x then none_or_implemented_h a else hret false in
    if y : bool then
      run! cc := make_parallelizer_with_h CONSEC_CHUNKS m a info in
      run! _ := append_to_parallelizer_list_h self cc in
      run! rr := make_parallelizer_with_h ROUND_ROBIN_PLAIN m a info in
      append_to_parallelizer_list_h self rr
    else hret tt
  else hret tt.
(** ParallelizabilityInfoGenerator_Interface.py:16-18 and 26-27 *)
Definition grep_para_h (inv : invocation) : hm hval :=
  run! self := new_para_info_h in
  run! _ := grep_generate_info_h inv self in
  hret self.
