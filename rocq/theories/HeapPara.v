(** * The helpers for parallelizability information, with the identity of objects
    GenHelpers.v describes the values.  Simplification: members of [Enum]s other than the kinds of
    splitters and aggregators are their values, strings; [False] and [True] are 0 and 1. *)
From Coq Require Import ZArith.
Require Import Verif.PyBase Verif.ParaTypes Verif.GenHelpers Verif.Heap Verif.HeapInfer.

Definition py_bool (b : bool) : hval := HInt (if b then 1 else 0)%Z.
(** TransformerFlagOptionList.py:122-123 and 56-59 *)
Definition make_transformer_same_as_seq_h : hm hval := alloc (OInst "TransformerFlagOptionListSeq" []).
(** MapperSpec.py:101-102 with the constructor, :26-46, and TransformerFlagOptionList.py:42-47 *)
Definition make_mapper_spec_seq_h : hm hval :=
  run! t := make_transformer_same_as_seq_h in
  alloc (OInst "MapperSpec" [("kind", HStr "same_as_seq"); ("spec_mapper_cmd_name", HNone); ("flag_option_list_transformer", t); ("is_implemented", py_bool true)]).
(** AggregatorSpec.py:162-167 with :36-46 *)
Definition new_aggregator_spec_non_func_h (k : agg_kind) (is_implemented : bool) : hm hval :=
  alloc (OInst "AggregatorSpecNonFunc" [("kind", HKind k); ("is_implemented", py_bool is_implemented)]).
(** AggregatorSpec.py:100-101 *)
Definition make_aggregator_spec_concatenate_h : hm hval := new_aggregator_spec_non_func_h CONCATENATE true.
(** AggregatorSpec.py:103-104 *)
Definition make_aggregator_spec_adj_lines_merge_h : hm hval := new_aggregator_spec_non_func_h ADJ_LINES_MERGE false.
(** AggregatorSpec.py:106-107 *)
Definition make_aggregator_spec_adj_lines_seq_h : hm hval := new_aggregator_spec_non_func_h ADJ_LINES_SEQ false.
(** AggregatorSpec.py:118-123 with the constructor, :253-259 *)
Definition make_aggregator_spec_adj_lines_func_from_string_representation_h (f : string) (is_implemented : bool) : hm hval :=
  alloc (OInst "AggregatorSpecFuncStringRepresentation" [("kind", HKind ADJ_LINES_FUNC); ("is_implemented", py_bool is_implemented); ("cmd_inv_as_str", HStr f)]).
(** Parallelizer.py:31-50: the constructor; the object is made when the assertion has been checked *)
Definition new_parallelizer_h (splitter mapper_spec aggregator_spec : hval) : hm hval :=
  run! k := get_attr splitter "kind" in
  run! _ := match k with
            | HSplit ROUND_ROBIN_PLAIN =>
                run! a := get_attr aggregator_spec "kind" in
                match a with
                | HKind CONCATENATE | HKind ADJ_LINES_MERGE | HKind ADJ_LINES_SEQ | HKind ADJ_LINES_FUNC => hret tt
                | _ => hthrow AssertionError
                end
            | _ => hret tt
            end in
  alloc (OInst "Parallelizer" [("splitter", splitter); ("core_mapper_spec", mapper_spec); ("core_aggregator_spec", aggregator_spec);
                               ("info_splitter_mapper", HStr "no_add_input"); ("info_mapper_aggregator", HInt 0)]).
(** Parallelizer.py:105-121 and 128-135, with the default for the mapper and perhaps for the
    aggregator; the default for the aggregator is made even if it is not used,
    AggregatorSpec.py:157-158 *)
Definition make_parallelizer_h (s : splitter) (aggregator_spec : hval) : hm hval :=
  run! m := make_mapper_spec_seq_h in
  run! d := make_aggregator_spec_concatenate_h in
  run! sp := new_splitter_h s in
  new_parallelizer_h sp m (match aggregator_spec with HNone => d | a => a end).
(** ParallelizabilityInfo.py:24-25 *)
Definition append_to_parallelizer_list_h (self p : hval) : hm unit :=
  run! l := get_attr self "parallelizer_list" in
  list_append l p.
(** The common part of ParallelizabilityInfoGenerator_Interface.py:34-79 *)
Definition append_new_h (s : splitter) (make_aggregator_spec : hm hval) (self : hval) : hm unit :=
  run! a := make_aggregator_spec in
  run! p := make_parallelizer_h s a in
  append_to_parallelizer_list_h self p.
(** ParallelizabilityInfoGenerator_Interface.py:34-82; a parallelizer that the method has made
    itself (:31-32) is left out here *)
Definition call_helper_h (k : helper) (self : hval) : hm unit :=
  match k with
  | Append _ => hthrow GenericException
  | IfSeqConc => append_new_h INDIV_FILES (hret HNone) self
  | IfSeqAdjm => append_new_h INDIV_FILES make_aggregator_spec_adj_lines_merge_h self
  | CcSeqConc => append_new_h CONSEC_CHUNKS (hret HNone) self
  | CcSeqAdjm => append_new_h CONSEC_CHUNKS make_aggregator_spec_adj_lines_merge_h self
  | RrSeqConc => append_new_h ROUND_ROBIN_PLAIN (hret HNone) self
  | RrSeqAdjm => append_new_h ROUND_ROBIN_PLAIN make_aggregator_spec_adj_lines_merge_h self
  | RrSeqAdjs => append_new_h ROUND_ROBIN_PLAIN make_aggregator_spec_adj_lines_seq_h self
  | CcSeqAdjs => append_new_h CONSEC_CHUNKS make_aggregator_spec_adj_lines_seq_h self
  | RrSeqAdjf f impl => append_new_h ROUND_ROBIN_PLAIN (make_aggregator_spec_adj_lines_func_from_string_representation_h f impl) self
  | CcSeqAdjf f impl => append_new_h CONSEC_CHUNKS (make_aggregator_spec_adj_lines_func_from_string_representation_h f impl) self
  | SetCommutative => set_attr self "is_commutative" (py_bool true)
  end.
Fixpoint call_helpers_h (ks : list helper) (self : hval) : hm unit :=
  match ks with
  | [] => hret tt
  | k :: ks' => run! _ := call_helper_h k self in call_helpers_h ks' self
  end.
(** ParallelizabilityInfo.py:10-19 *)
Definition new_para_info_h : hm hval :=
  run! l := alloc (OList []) in
  alloc (OInst "ParallelizabilityInfo" [("parallelizer_list", l); ("round_robin_compatible_with_cat", py_bool false); ("is_commutative", py_bool false)]).
(** ParallelizabilityInfoGenerator_Interface.py:16-18, a [generate_info] method that makes these
    calls, and [get_info], :26-27 *)
Definition generate_para_h (ks : list helper) : hm hval :=
  run! self := new_para_info_h in
  run! _ := call_helpers_h ks self in
  hret self.
