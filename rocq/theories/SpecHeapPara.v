(** * Reading of the theorems about parallelizability information as objects (C98) *)
From Coq Require Import ZArith.
Require Import Verif.PyBase Verif.Transformers Verif.ParaTypes Verif.GenHelpers Verif.Heap Verif.SpecHeap Verif.SpecHeapEq Verif.HeapInfer Verif.SpecInfer.

Definition bool_is (v : hval) (b : bool) : Prop := v = HInt (if b then 1 else 0)%Z.
(** The mapper spec that runs the command itself *)
Definition same_as_seq (h : heap) (v : hval) (m : mapper_spec) : Prop :=
  exists l t b, v = HRef l /\
    nth_error h l = Some (OInst "MapperSpec" [("kind", HStr "same_as_seq"); ("spec_mapper_cmd_name", HNone); ("flag_option_list_transformer", HRef t); ("is_implemented", b)]) /\
    nth_error h t = Some (OInst "TransformerFlagOptionListSeq" []) /\ bool_is b (ms_is_implemented m) /\
    ms_kind m = SAME_AS_SEQ /\ ms_cmd_name m = None /\ ms_transformer m = TSeq.
Definition aggregator_spec_is (h : heap) (v : hval) (a : agg_spec) : Prop :=
  exists l b, v = HRef l /\ bool_is b (agg_is_implemented a) /\
    match a with
    | AggNonFunc k _ => nth_error h l = Some (OInst "AggregatorSpecNonFunc" [("kind", HKind k); ("is_implemented", b)])
    | AggString k s _ => nth_error h l = Some (OInst "AggregatorSpecFuncStringRepresentation" [("kind", HKind k); ("is_implemented", b); ("cmd_inv_as_str", HStr s)])
    | AggTransformer _ _ _ => False
    end.
Definition parallelizer_is (h : heap) (v : hval) (p : parallelizer) : Prop :=
  exists l s m a, v = HRef l /\
    nth_error h l = Some (OInst "Parallelizer" [("splitter", s); ("core_mapper_spec", m); ("core_aggregator_spec", a); ("info_splitter_mapper", HStr "no_add_input"); ("info_mapper_aggregator", HInt 0)]) /\
    splitter_of h s (p_splitter p) /\ same_as_seq h m (p_mapper p) /\ aggregator_spec_is h a (p_aggregator p) /\
    p_info_splitter_mapper p = NO_ADD_INPUT /\ p_info_mapper_aggregator p = 0.
(** An information with the list [la] and the flags of [i], and no other attribute *)
Definition info_object (h : heap) (v : hval) (la : loc) (i : para_info) : Prop :=
  exists l r c, v = HRef l /\ bool_is r (round_robin_compatible_with_cat i) /\ bool_is c (is_commutative i) /\
    nth_error h l = Some (OInst "ParallelizabilityInfo" [("parallelizer_list", HRef la); ("round_robin_compatible_with_cat", r); ("is_commutative", c)]).
(** A call that makes the parallelizer itself, or makes none *)
Definition library_call (k : helper) : Prop := forall p, k <> Append p.
