(** * The generator of parallelizability information for uniq, with the identity of objects
    ParaGen.v describes the values.  Simplification: the flags of the invocation are tested on the
    value of the invocation; the tests change no object (HeapGenerators.v has them on objects). *)
Require Import Verif.PyBase Verif.JsonData Verif.Parser Verif.IOGen Verif.ParaTypes Verif.ParaGen Verif.Heap Verif.HeapPara.

(** ParallelizabilityInfoGeneratorUniq.py:21-34 *)
Definition uniq_generate_info_h (inv : invocation) (self : hval) : hm unit :=
  if negb (contains_one_of inv ["-d"; "-D"; "--all-repeated"]) then
    if contains_one_of inv ["-c"] then
      run! a := make_aggregator_spec_adj_lines_func_from_string_representation_h "PLACEHOLDER:uniq_merge_count_uniq" false in
      run! cc := make_parallelizer_h CONSEC_CHUNKS a in
      run! rr := make_parallelizer_h ROUND_ROBIN_PLAIN a in
      run! _ := append_to_parallelizer_list_h self cc in
      append_to_parallelizer_list_h self rr
    else
      run! _ := append_new_h CONSEC_CHUNKS make_aggregator_spec_adj_lines_seq_h self in
      append_new_h ROUND_ROBIN_PLAIN make_aggregator_spec_adj_lines_seq_h self
  else hret tt.
(** ParallelizabilityInfoGenerator_Interface.py:16-18 and 26-27 *)
Definition uniq_para_h (inv : invocation) : hm hval :=
  run! self := new_para_info_h in
  run! _ := uniq_generate_info_h inv self in
  hret self.
