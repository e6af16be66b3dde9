(** * [==] on objects: the [__eq__] methods and standard_eq (util_standard.py:11-14) *)
From Coq Require Import ZArith.
Require Import Verif.PyBase Verif.Access Verif.IOInfo Verif.ParaTypes Verif.Heap.

(** Classes without [__eq__], neither own nor inherited: OptionWithIOVar
    (BasicDatatypesWithIOVar.py:6-18), OperandWithIO (BasicDatatypesWithIO.py:108-118),
    InputOutputInfo (InputOutputInfo.py:16-36), ParallelizabilityInfo
    (ParallelizabilityInfo.py:8-22), Inputs (Inputs.py:9-13) and CommandProperties
    (CommandProperties.py:6-12).  Every other class of the package calls standard_eq:
    AccessKind.py:23-24, BasicDatatypes.py:15-16, CommandInvocationInitial.py:16-17,
    CommandInvocationPrefix.py:16-17, CommandInvocationWithIO.py:27-28,
    CommandInvocationWithIOVars.py:35-36, Mapper.py:30-31, Aggregator.py:28-29,
    MapperSpec.py:49-50, AggregatorSpec.py:49-50, Parallelizer.py:52-53 and
    TransformerFlagOptionList.py:23-24.  Splitter (Splitter.py:16-17) compares the kinds only, see
    [splitter_eq]; [py_eq] treats it like the others, which C65_splitter justifies. *)
Definition without_eq : list string :=
  ["OptionWithIOVar"; "OperandWithIO"; "InputOutputInfo"; "ParallelizabilityInfo"; "Inputs"; "CommandProperties"].

(** The same immutable value or the same object.  Whether two equal strings are one object
    makes no difference below. *)
Definition hval_eq_dec (v w : hval) : {v = w} + {v <> w}.
Proof.
  decide equality; try apply Z.eq_dec; try apply string_dec; try apply Nat.eq_dec; decide equality.
Defined.
Definition is_same (v w : hval) : bool := if hval_eq_dec v w then true else false.

(** Comparisons that may not end: [None] *)
Definition and_then (x : option bool) (y : option bool) : option bool :=
  match x with Some true => y | _ => x end.
(** Elements of lists and values of dicts: identical or equal.  Lists are compared in order,
    after their lengths. *)
Fixpoint eq_items (f : hval -> hval -> option bool) (l l' : list hval) : option bool :=
  match l, l' with
  | v :: l1, w :: l1' => and_then (if is_same v w then Some true else f v w) (eq_items f l1 l1')
  | _, _ => Some true
  end.
Definition eq_list (f : hval -> hval -> option bool) (l l' : list hval) : option bool :=
  if Nat.eqb (length l) (length l') then eq_items f l l' else Some false.
(** Dicts are compared key by key, after their sizes. *)
Fixpoint eq_entries {K} (f : hval -> hval -> option bool) (find : K -> option hval) (l : list (K * hval)) : option bool :=
  match l with
  | [] => Some true
  | (k, v) :: l1 =>
      match find k with
      | None => Some false
      | Some w => and_then (if is_same v w then Some true else f v w) (eq_entries f find l1)
      end
  end.
Definition eq_dict {K} (f : hval -> hval -> option bool) (find : list (K * hval) -> K -> option hval) (l l' : list (K * hval)) : option bool :=
  if Nat.eqb (length l) (length l') then eq_entries f (find l') l else Some false.

(** [v == w].  [n] bounds the depth of the recursion; [None] if it does not suffice. *)
Fixpoint py_eq (n : nat) (h : heap) (v w : hval) : option bool :=
  match v, w with
  | HRef a, HRef b =>
      match n with
      | O => None
      | S n' =>
          match nth_error h a, nth_error h b with
          | Some (OList l), Some (OList l') => eq_list (py_eq n' h) l l'
          | Some (ODict l), Some (ODict l') => eq_dict (py_eq n' h) assoc_z l l'
          | Some (OInst c l), Some (OInst c' l') =>
              if mem c without_eq then Some (is_same v w)
              else if String.eqb c c' then eq_dict (py_eq n' h) assoc_s l l'
              else Some false
          | _, _ => Some (is_same v w)
          end
      end
  | _, _ => Some (is_same v w)
  end.

(** Splitter.__eq__, Splitter.py:16-17: [self.kind == other.kind].  [None]: AttributeError. *)
Definition kind_of (h : heap) (v : hval) : option hval :=
  match v with
  | HRef l => match nth_error h l with Some (OInst _ attrs) => assoc_s attrs "kind" | _ => None end
  | _ => None
  end.
Definition splitter_eq (n : nat) (h : heap) (v w : hval) : option (option bool) :=
  match kind_of h v, kind_of h w with Some k, Some k' => Some (py_eq n h k k') | _, _ => None end.
