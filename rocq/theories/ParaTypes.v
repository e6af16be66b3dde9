(** * Model of annotation_generation/datatypes/ParallelizabilityInfo.py and of
    datatypes/parallelizability/{Splitter,MapperSpec,AggregatorKind,AggregatorSpec,Parallelizer}.py
    (all but the [get_...] methods of the specs, which are in MapperAgg.v) *)
Require Import Verif.PyBase Verif.JsonData Verif.Parser Verif.IOVars Verif.Transformers.

(** Splitter.py:4-8; a [Splitter] is represented by its [kind]. *)
Inductive splitter : Type := INDIV_FILES | ROUND_ROBIN_PLAIN | ROUND_ROBIN_UNWRAP_FLAG | CONSEC_CHUNKS.
(** Splitter.py:22-23 *)
Definition is_splitter_round_robin (s : splitter) : bool :=
  match s with ROUND_ROBIN_PLAIN => true | _ => false end.
(** Splitter.py:28-29 *)
Definition is_splitter_consec_chunks (s : splitter) : bool :=
  match s with CONSEC_CHUNKS => true | _ => false end.

(** MapperSpec.py:19-21 *)
Inductive mapper_kind : Type := SAME_AS_SEQ | CUSTOM.
Record mapper_spec : Type := mkMapperSpec
  { ms_kind : mapper_kind; ms_cmd_name : option string; ms_transformer : transformer; ms_is_implemented : bool }.
(** MapperSpec.py:26-46: the constructor *)
Definition new_mapper_spec (kind : mapper_kind) (cmd : option string) (t : option transformer) (impl : bool)
  : result mapper_spec :=
  let! _ := match kind with
            | SAME_AS_SEQ => match cmd, t with None, None => Ok tt | _, _ => Raise AssertionError end
            | CUSTOM => Ok tt
            end in
  Ok (mkMapperSpec kind cmd (transformer_or_seq t) impl).
(** MapperSpec.py:101-102 *)
Definition make_mapper_spec_seq : result mapper_spec := new_mapper_spec SAME_AS_SEQ None None true.
(** MapperSpec.py:107-121 *)
Definition make_mapper_spec_custom (cmd : string) (t : option transformer) (impl : bool) : result mapper_spec :=
  new_mapper_spec CUSTOM (Some cmd) (Some (transformer_or_seq t)) impl.

(** [for x in flag_option_list: assert isinstance(x, Flag); new_list.append(x)],
    MapperSpec.py:130-133, AggregatorSpec.py:273-276, 310-313 *)
Definition only_flags (l : list flag_option) : result (list flag_el) :=
  map_result (fun fo => match fo with Flag n => Ok (FFlag n) | Option_ _ _ => Raise AssertionError end) l.

(** MapperSpec.py:123-137 *)
Definition make_mapper_spec_custom_from_string (dir : data_dir) (s : string) (impl : bool) : result mapper_spec :=
  let! cmd_inv := parse dir s in
  let! l := only_flags (flag_option_list cmd_inv) in
  make_mapper_spec_custom (cmd_name cmd_inv) (Some (TCustom l)) impl.

(** AggregatorKind.py:3-14 *)
Inductive agg_kind : Type :=
| CONCATENATE | ADJ_LINES_MERGE | ADJ_LINES_SEQ | ADJ_LINES_FUNC | CUSTOM_2_ARY | CUSTOM_N_ARY.
(** The classes [AggregatorSpecNonFunc] (AggregatorSpec.py:162-167),
    [AggregatorSpecFuncTransformer] (203-213), [AggregatorSpecFuncStringRepresentation] (251-259).
    The constructors accept every kind. *)
Inductive agg_spec : Type :=
| AggNonFunc (kind : agg_kind) (is_implemented : bool)
| AggTransformer (kind : agg_kind) (t : transformer) (is_implemented : bool)
| AggString (kind : agg_kind) (cmd_inv_as_str : string) (is_implemented : bool).
Definition agg_kind_of (a : agg_spec) : agg_kind :=
  match a with AggNonFunc k _ => k | AggTransformer k _ _ => k | AggString k _ _ => k end.
Definition agg_is_implemented (a : agg_spec) : bool :=
  match a with AggNonFunc _ b => b | AggTransformer _ _ b => b | AggString _ _ b => b end.
(** AggregatorSpec.py:100-107 *)
Definition make_aggregator_spec_concatenate : agg_spec := AggNonFunc CONCATENATE true.
Definition make_aggregator_spec_adj_lines_merge : agg_spec := AggNonFunc ADJ_LINES_MERGE false.
Definition make_aggregator_spec_adj_lines_seq : agg_spec := AggNonFunc ADJ_LINES_SEQ false.
(** AggregatorSpec.py:109-155 *)
Definition make_aggregator_spec_from_transformers (k : agg_kind) (t : option transformer) (impl : bool) : agg_spec :=
  AggTransformer k (transformer_or_seq t) impl.
Definition make_aggregator_spec_from_string (k : agg_kind) (s : string) (impl : bool) : agg_spec :=
  AggString k s impl.

(** AggregatorSpec.py:55-65 *)
Definition round_robin_aggregator (a : agg_spec) : bool :=
  match agg_kind_of a with
  | CONCATENATE | ADJ_LINES_MERGE | ADJ_LINES_SEQ | ADJ_LINES_FUNC => true
  | _ => false
  end.

(** Parallelizer.py:22-26 *)
Inductive add_info : Type := NO_ADD_INPUT | LINE_NUM_OFFSET | BYTE_OFFSET | LINE_NUM_AND_BYTE_OFFSET.
Record parallelizer : Type := mkPar
  { p_splitter : splitter; p_mapper : mapper_spec; p_aggregator : agg_spec;
    p_info_splitter_mapper : add_info; p_info_mapper_aggregator : nat }.
(** Parallelizer.py:31-50: the constructor *)
Definition new_parallelizer (s : splitter) (m : mapper_spec) (a : agg_spec) (i : option add_info) (n : nat)
  : result parallelizer :=
  let! _ := assert_ (negb (is_splitter_round_robin s) || round_robin_aggregator a) in
  Ok (mkPar s m a (match i with None => NO_ADD_INPUT | Some x => x end) n).
(** Parallelizer.py:105-121, 128-135, MapperSpec.py:104-105, AggregatorSpec.py:157-158.
    (The defaults are also built when they are not used, which cannot fail.) *)
Definition make_parallelizer (s : splitter) (m : option mapper_spec) (a : option agg_spec)
    (i : option add_info) (n : nat) : result parallelizer :=
  let! d := make_mapper_spec_seq in
  let m := match m with None => d | Some m => m end in
  let a := match a with None => make_aggregator_spec_concatenate | Some a => a end in
  new_parallelizer s m a i n.
(** Parallelizer.py:123-126 *)
Definition make_parallelizer_round_robin_with_unwrap_from_other (p : parallelizer) : parallelizer :=
  mkPar ROUND_ROBIN_UNWRAP_FLAG (p_mapper p) (p_aggregator p) (p_info_splitter_mapper p) (p_info_mapper_aggregator p).
(** Parallelizer.py:102-103 *)
Definition are_all_parts_implemented (p : parallelizer) : bool :=
  ms_is_implemented (p_mapper p) && agg_is_implemented (p_aggregator p).

(** ParallelizabilityInfo.py:10-19 *)
Record para_info : Type := mkPI
  { parallelizer_list : list parallelizer; round_robin_compatible_with_cat : bool; is_commutative : bool }.
Definition new_para_info : para_info := mkPI [] false false.
(** ParallelizabilityInfo.py:24-25 *)
Definition append_to_parallelizer_list (p : parallelizer) (i : para_info) : para_info :=
  mkPI (parallelizer_list i ++ [p]) (round_robin_compatible_with_cat i) (is_commutative i).
(** ParallelizabilityInfo.py:27-28 *)
Definition set_commutative (i : para_info) : para_info :=
  mkPI (parallelizer_list i) (round_robin_compatible_with_cat i) true.

(** ParallelizabilityInfo.py:32-35: the [for] loop runs over the very list it appends to,
    by position [n]; [None]: not finished after [fuel] iterations. *)
Fixpoint infer_loop (fuel : nat) (commutative : bool) (n : nat) (l : list parallelizer)
  : option (list parallelizer) :=
  match fuel with
  | 0 => None
  | S fuel' =>
      match nth_error l n with
      | None => Some l
      | Some p =>
          infer_loop fuel' commutative (S n)
            (if commutative && is_splitter_consec_chunks (p_splitter p)
             then l ++ [make_parallelizer_round_robin_with_unwrap_from_other p] else l)
      end
  end.
(** ParallelizabilityInfo.py:30-36: the list returned, which is also the stored one *)
Definition get_inferred_parallelizer_list (fuel : nat) (i : para_info) : option (para_info * list parallelizer) :=
  match infer_loop fuel (is_commutative i) 0 (parallelizer_list i) with
  | None => None
  | Some l => Some (mkPI l (round_robin_compatible_with_cat i) (is_commutative i), l)
  end.
(** ParallelizabilityInfo.py:38-39 *)
Definition unpack_info (fuel : nat) (i : para_info) : option (para_info * (list parallelizer * bool * bool)) :=
  match get_inferred_parallelizer_list fuel i with
  | None => None
  | Some (i', l) => Some (i', (l, round_robin_compatible_with_cat i', is_commutative i'))
  end.
