(** * Which options share an access (C96) *)
Require Import Verif.PyBase Verif.Access Verif.IOInfo Verif.Heap Verif.HeapApply Verif.SpecHeap Verif.SpecApply Verif.SpecShare.

(** The argument of the option [v] of the result has the access [r]. *)
Definition has_option_access (h : heap) (v r : hval) : Prop :=
  exists l n a, v = HRef l /\ nth_error h l = Some (OInst "OptionWithIO" [("option_name", n); ("option_arg", a)]) /\ has_access h a r.
(** The objects of the flags of the invocation *)
Definition of_a_flag (h : heap) (fos : list hval) (l : loc) : Prop :=
  exists fo, In fo fos /\ class_in h fo "Flag" /\ reaches h fo l.
