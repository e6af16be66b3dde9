(** * Which operands share an access (C95) *)
Require Import Verif.PyBase Verif.Access Verif.IOInfo Verif.IOHelpers Verif.SpecIOHelpers Verif.Heap Verif.HeapApply Verif.SpecHeap Verif.SpecApply.

(** One call has, as the last one, said something about both operands, or none has. *)
Definition together (ks : list io_helper) (n p q : nat) : Prop :=
  (exists l k l', ks = l ++ k :: l' /\ (exists t, assigns k n p t) /\ (exists t, assigns k n q t) /\
     forall k' t, In k' l' -> ~ assigns k' n p t /\ ~ assigns k' n q t) \/
  (forall k t, In k ks -> ~ assigns k n p t /\ ~ assigns k n q t).
(** The operand [v] of the result has the access [r]. *)
Definition has_access (h : heap) (v r : hval) : Prop :=
  exists l c n, v = HRef l /\ In c ["FileNameWithIOInfo"; "StdDescriptorWithIOInfo"] /\ nth_error h l = Some (OInst c [("name", n); ("access", r)]).
(** The old objects that the flags and options of the result take over *)
Definition taken_over (h : heap) (fos fts : list hval) (l : loc) : Prop :=
  exists fo t, In (fo, t) (combine fos fts) /\ brought_by_flagoption h fo t l.
