(** * Model of the predicates that ask for the kind of a splitter, an aggregator specification
    or a command (datatypes/parallelizability/{Splitter,AggregatorSpec,Aggregator}.py,
    datatypes/CommandInvocationWithIOVars.py) *)
Require Import Verif.PyBase Verif.JsonData Verif.Parser Verif.Access Verif.IOInfo Verif.IOVars
  Verif.Transformers Verif.ParaTypes Verif.MapperAgg.

(** Splitter.py:25-26 *)
Definition is_splitter_round_robin_with_unwrap_flag (s : splitter) : bool :=
  match s with ROUND_ROBIN_UNWRAP_FLAG => true | _ => false end.
(** Splitter.py:32-42 *)
Definition make_splitter_indiv_files : splitter := INDIV_FILES.
Definition make_splitter_round_robin : splitter := ROUND_ROBIN_PLAIN.
Definition make_splitter_round_robin_with_unwrap : splitter := ROUND_ROBIN_UNWRAP_FLAG.
Definition make_splitter_consec_chunks : splitter := CONSEC_CHUNKS.

(** AggregatorSpec.py:53-69 *)
Definition is_aggregator_spec_concatenate (a : agg_spec) : bool :=
  match agg_kind_of a with CONCATENATE => true | _ => false end.
Definition is_aggregator_spec_adj_lines_merge (a : agg_spec) : bool :=
  match agg_kind_of a with ADJ_LINES_MERGE => true | _ => false end.
Definition is_aggregator_spec_adj_lines_seq (a : agg_spec) : bool :=
  match agg_kind_of a with ADJ_LINES_SEQ => true | _ => false end.
Definition is_aggregator_spec_adj_lines_func (a : agg_spec) : bool :=
  match agg_kind_of a with ADJ_LINES_FUNC => true | _ => false end.
Definition is_aggregator_spec_custom_2_ary (a : agg_spec) : bool :=
  match agg_kind_of a with CUSTOM_2_ARY => true | _ => false end.
Definition is_aggregator_spec_custom_n_ary (a : agg_spec) : bool :=
  match agg_kind_of a with CUSTOM_N_ARY => true | _ => false end.

(** What the caller holds: a [CommandInvocationWithIOVars] (or a [Mapper], a subclass that does not
    override the predicate, Mapper.py) or an [Aggregator]. *)
Inductive command : Type :=
| Invocation (c : civ)
| Aggregates (a : aggregator).
(** CommandInvocationWithIOVars.py:38-39 and Aggregator.py:34-35, which overrides it *)
Definition is_aggregator_concatenate (x : command) : bool :=
  match x with
  | Invocation _ => false
  | Aggregates (k, _) => match k with CONCATENATE => true | _ => false end
  end.
