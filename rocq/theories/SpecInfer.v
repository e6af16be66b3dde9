(** * Reading of the theorems about the list of inferred parallelizers as objects *)
From Coq Require Import ZArith.
Require Import Verif.PyBase Verif.ParaTypes Verif.Heap Verif.HeapEq Verif.SpecHeap Verif.SpecHeapEq Verif.HeapInfer.

(** [x] is a parallelizer with a splitter of kind [k]. *)
Definition splits_by (h : heap) (k : splitter) (x : hval) : Prop :=
  exists a attrs s, x = HRef a /\ nth_error h a = Some (OInst "Parallelizer" attrs) /\
    assoc_s attrs "splitter" = Some s /\ splitter_of h s k.
(** [x] is a parallelizability information whose list is the object [la]. *)
Definition info_with_list (h : heap) (x : hval) (commutative : bool) (la : loc) : Prop :=
  exists a attrs, x = HRef a /\ nth_error h a = Some (OInst "ParallelizabilityInfo" attrs) /\
    assoc_s attrs "parallelizer_list" = Some (HRef la) /\
    assoc_s attrs "is_commutative" = Some (HInt (if commutative then 1 else 0)%Z).
(** The objects that [x] consists of: a tree or a graph without cycles, all compared by value, and
    without the list [la]. *)
Definition own_value (h : heap) (la : loc) (x : hval) : Prop :=
  valid h x /\ grounded h x /\ ~ reaches_without_eq h x /\ ~ reaches h x la.
(** A parallelizability information as the annotations leave it *)
Definition info_ok (h : heap) (x : hval) (commutative : bool) (la : loc) (ps : list hval) : Prop :=
  closed h /\ proper h /\ info_with_list h x commutative la /\ nth_error h la = Some (OList ps) /\
  Forall (fun p => own_value h la p /\ exists k, splits_by h k p) ps.
(** [q] is a parallelizer like [p] but for its splitter, which is of kind [k]: the same attributes,
    and all others are equal. *)
Definition same_but_splitter (h : heap) (k : splitter) (p q : hval) : Prop :=
  exists a b l l', p = HRef a /\ nth_error h a = Some (OInst "Parallelizer" l) /\
    q = HRef b /\ nth_error h b = Some (OInst "Parallelizer" l') /\
    map fst l = map fst l' /\
    (forall n v w, n <> "splitter" -> assoc_s l n = Some v -> assoc_s l' n = Some w -> equal h v w) /\
    splits_by h k q.
(** No object belongs to both. *)
Definition disjoint (h : heap) (x y : hval) : Prop := forall l, reaches h x l -> ~ reaches h y l.
(** The call comes to an end, with the result and the heap. *)
Definition infers (h : heap) (x : hval) (h' : heap) (r : hval) : Prop :=
  exists n, forall fuel, n <= fuel -> get_inferred_parallelizer_list_h fuel x h = (h', Ok (Some r)).
