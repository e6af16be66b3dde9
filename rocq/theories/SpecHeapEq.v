(** * Specification of equal objects *)
Require Import Verif.PyBase Verif.ParaTypes Verif.Heap Verif.HeapEq Verif.SpecHeap Verif.IOInfo Verif.IOVars Verif.Access.

(** The classes whose objects are equal only to themselves *)
Definition by_identity : list string :=
  ["OptionWithIOVar"; "OperandWithIO"; "InputOutputInfo"; "ParallelizabilityInfo"; "Inputs"; "CommandProperties"].

(** The two values are equal: the same value or object, or lists with equal elements, dicts
    with the same keys and equal values, instances of the same class with equal attributes, if
    the class defines equality. *)
Inductive same (h : heap) : hval -> hval -> Prop :=
| same_value v : same h v v
| same_list a b l l' : nth_error h a = Some (OList l) -> nth_error h b = Some (OList l') ->
    length l = length l' ->
    (forall i v w, nth_error l i = Some v -> nth_error l' i = Some w -> same h v w) ->
    same h (HRef a) (HRef b)
| same_dict a b l l' : nth_error h a = Some (ODict l) -> nth_error h b = Some (ODict l') ->
    (forall k, assoc_z l k = None <-> assoc_z l' k = None) ->
    (forall k v w, assoc_z l k = Some v -> assoc_z l' k = Some w -> same h v w) ->
    same h (HRef a) (HRef b)
| same_instance a b c l l' : nth_error h a = Some (OInst c l) -> nth_error h b = Some (OInst c l') ->
    ~ In c by_identity ->
    (forall k, assoc_s l k = None <-> assoc_s l' k = None) ->
    (forall k v w, assoc_s l k = Some v -> assoc_s l' k = Some w -> same h v w) ->
    same h (HRef a) (HRef b).

(** The outcome of [v == w] *)
Definition equal (h : heap) (v w : hval) : Prop := exists n, py_eq n h v w = Some true.
Definition unequal (h : heap) (v w : hval) : Prop := exists n, py_eq n h v w = Some false.

(** Keys and names of attributes occur once: true of every heap of a Python process. *)
Definition proper (h : heap) : Prop :=
  forall o, In o h -> match o with
                      | OList _ => True
                      | ODict l => NoDup (map fst l)
                      | OInst _ l => NoDup (map fst l)
                      end.
(** No object is reached from itself, starting at the value. *)
Inductive grounded (h : heap) : hval -> Prop :=
| gr_value v : (forall l, v <> HRef l) -> grounded h v
| gr_object l o : nth_error h l = Some o -> (forall v, In v (slots o) -> grounded h v) -> grounded h (HRef l).

(** An object is reached that is compared by identity. *)
Definition reaches_without_eq (h : heap) (v : hval) : Prop :=
  exists l c attrs, reaches h v l /\ nth_error h l = Some (OInst c attrs) /\ In c by_identity.

(** Every instance of these classes has the attributes its constructor sets and no other. *)
Definition attributes (cls : string) : option (list string) :=
  if String.eqb cls "AccessKind" then Some ["kind"]
  else if String.eqb cls "ArgStringType" then Some ["name"]
  else if String.eqb cls "FileNameWithIOInfo" then Some ["name"; "access"]
  else if String.eqb cls "StdDescriptorWithIOInfo" then Some ["name"; "access"]
  else if String.eqb cls "Flag" then Some ["flag_name"]
  else if String.eqb cls "OptionWithIO" then Some ["option_name"; "option_arg"]
  else if mem cls ["CommandInvocationWithIOVars"; "Mapper"] then
    Some ["cmd_name"; "flag_option_list"; "operand_list"; "implicit_use_of_streaming_input";
          "implicit_use_of_streaming_output"; "access_map"]
  else None.
Definition as_constructed (h : heap) : Prop :=
  forall cls attrs names, In (OInst cls attrs) h -> attributes cls = Some names ->
    forall k, In k (map fst attrs) <-> In k names.
(** The same invocation, with the same accesses *)
Definition same_civ (c d : civ) : Prop :=
  v_cmd c = v_cmd d /\ v_flags c = v_flags d /\ v_ops c = v_ops d /\ v_in c = v_in d /\ v_out c = v_out d /\
  forall k, v_acc c k = v_acc d k.
(** The class of an object *)
Definition class_is (h : heap) (x : hval) (cls : string) : Prop := exists a attrs, x = HRef a /\ nth_error h a = Some (OInst cls attrs).
(** A splitter as made by its constructor, and an object of another class whose kind is a member
    of another [Enum] (AccessKind, Inputs, MapperSpec, AggregatorSpec, Aggregator) *)
Definition splitter_of (h : heap) (x : hval) (k : splitter) : Prop :=
  exists a, x = HRef a /\ nth_error h a = Some (OInst "Splitter" [("kind", HSplit k)]).
Definition other_kind (h : heap) (x : hval) : Prop :=
  exists a cls attrs v, x = HRef a /\ nth_error h a = Some (OInst cls attrs) /\ cls <> "Splitter" /\ assoc_s attrs "kind" = Some v /\
    (forall l, v <> HRef l) /\ forall k, v <> HSplit k.
(** Nothing has an attribute kind. *)
Definition kindless (h : heap) (x : hval) : Prop :=
  forall a cls attrs, x = HRef a -> nth_error h a = Some (OInst cls attrs) -> assoc_s attrs "kind" = None.
