(** * Model of the helpers that generators of parallelizability information are written with
    (annotation_generation/annotation_generators/ParallelizabilityInfoGenerator_Interface.py) *)
Require Import Verif.PyBase Verif.JsonData Verif.Parser Verif.Transformers Verif.ParaTypes Verif.ParaGen.

(** ParallelizabilityInfoGenerator_Interface.py:34-36: not used by any generator *)
Definition if_seq_conc : para_info -> result para_info := append_new INDIV_FILES None.
(** ParallelizabilityInfoGenerator_Interface.py:38-41: not used by any generator *)
Definition if_seq_adjm : para_info -> result para_info := append_new INDIV_FILES (Some make_aggregator_spec_adj_lines_merge).

(** The calls a [generate_info] method may make: the helpers of
    ParallelizabilityInfoGenerator_Interface.py:31-82 *)
Inductive helper : Type :=
| Append (p : parallelizer) | IfSeqConc | IfSeqAdjm | CcSeqConc | CcSeqAdjm | RrSeqConc | RrSeqAdjm | RrSeqAdjs | CcSeqAdjs
| RrSeqAdjf (f : string) (impl : bool) | CcSeqAdjf (f : string) (impl : bool) | SetCommutative.
Definition call_helper (k : helper) : para_info -> result para_info :=
  match k with
  | Append p => fun i => Ok (append_to_parallelizer_list p i) (* :31-32 *)
  | IfSeqConc => if_seq_conc
  | IfSeqAdjm => if_seq_adjm
  | CcSeqConc => cc_seq_conc
  | CcSeqAdjm => cc_seq_adjm
  | RrSeqConc => rr_seq_conc
  | RrSeqAdjm => rr_seq_adjm
  | RrSeqAdjs => rr_seq_adjs
  | CcSeqAdjs => cc_seq_adjs
  | RrSeqAdjf f impl => rr_seq_adjf f impl
  | CcSeqAdjf f impl => cc_seq_adjf f impl
  | SetCommutative => fun i => Ok (set_commutative i) (* :81-82 *)
  end.
(** A method that makes these calls, one after the other *)
Fixpoint call_helpers (ks : list helper) (i : para_info) : result para_info :=
  match ks with
  | [] => Ok i
  | k :: ks' => let! i := call_helper k i in call_helpers ks' i
  end.
