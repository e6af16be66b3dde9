(** * What generators of parallelizability information build (C85)
    Specification: what each helper adds, when the plans it adds are right, and files that are
    treated one by one. *)
Require Import Verif.PyBase Verif.JsonData Verif.Parser Verif.IOVars Verif.Transformers Verif.ParaTypes Verif.ParaGen Verif.GenHelpers
  Verif.MapperAgg Verif.SpecPara Verif.SpecSem Verif.SpecSem4 Verif.SpecSem6.

(** The table of the helpers: how the input is divided, and what joins the results *)
Definition divides (k : helper) : option splitter :=
  match k with
  | Append p => Some (p_splitter p)
  | IfSeqConc | IfSeqAdjm => Some INDIV_FILES
  | CcSeqConc | CcSeqAdjm | CcSeqAdjs | CcSeqAdjf _ _ => Some CONSEC_CHUNKS
  | RrSeqConc | RrSeqAdjm | RrSeqAdjs | RrSeqAdjf _ _ => Some ROUND_ROBIN_PLAIN
  | SetCommutative => None
  end.
Definition joins (k : helper) : option agg_spec :=
  match k with
  | Append p => Some (p_aggregator p)
  | IfSeqConc | CcSeqConc | RrSeqConc => Some concat
  | IfSeqAdjm | CcSeqAdjm | RrSeqAdjm => Some adj_merge
  | CcSeqAdjs | RrSeqAdjs => Some adj_seq
  | CcSeqAdjf f impl | RrSeqAdjf f impl => Some (AggString ADJ_LINES_FUNC f impl)
  | SetCommutative => None
  end.
(** [adds k l]: the parallelizers that one call adds.  Apart from [Append] every helper adds one
    that runs the command itself, without additional information. *)
Inductive adds : helper -> list parallelizer -> Prop :=
| adds_append p : adds (Append p) [p]
| adds_none : adds SetCommutative []
| adds_one k p : (forall q, k <> Append q) -> divides k = Some (p_splitter p) -> joins k = Some (p_aggregator p) ->
    p_mapper p = seq_mapper -> p_info_splitter_mapper p = NO_ADD_INPUT -> p_info_mapper_aggregator p = 0 -> adds k [p].

(** What the invocation prints depends on the lines only, in whichever order they come. *)
Definition orderless (B : behaviour) (c : civ) (i : Z) : Prop :=
  forall s seed seed' x y, Permutation (lines x) (lines y) -> run B seed c (put i x s) = run B seed' c (put i y s).
