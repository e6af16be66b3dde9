(** * [str] and [repr] of objects: standard_repr (util_standard.py:1-9) on the heap *)
From Coq Require Import ZArith DecimalString.
Require Import Verif.PyBase Verif.Access Verif.IOInfo Verif.ParaTypes Verif.Text Verif.Heap.

(** Decimal numbers, with a sign if negative *)
Definition decimal (v : Z) : string := NilZero.string_of_int (Z.to_int v).
Definition decimal_nat (n : nat) : string := decimal (Z.of_nat n).

(** Classes without [__repr__], neither own nor inherited: OptionWithIOVar
    (BasicDatatypesWithIOVar.py:6-18), OperandWithIO (BasicDatatypesWithIO.py:108-118) and Inputs
    (Inputs.py:9-13) *)
Definition without_repr : list string := ["OptionWithIOVar"; "OperandWithIO"; "Inputs"].
(** The module a class is defined in.  All of them call standard_repr but those in
    [without_repr]: BasicDatatypes.py:12-13, AccessKind.py:20-21,
    CommandInvocationWithIOVars.py:32-33, Mapper.py:33-34, Aggregator.py:31-32.  Not modelled: Operand,
    Splitter and Parallelizer, which have texts of their own (see Text.v) and occur in no
    invocation with variables; classes in no list are taken to be in the datatypes package. *)
Definition modules : list (string * list string) :=
  [("BasicDatatypes", ["FileName"; "StdDescriptor"; "ArgStringType"; "Flag"; "Option"]);
   ("BasicDatatypesWithIO", ["FileNameWithIOInfo"; "StdDescriptorWithIOInfo"; "OptionWithIO"; "OperandWithIO"]);
   ("BasicDatatypesWithIOVar", ["OptionWithIOVar"]);
   ("AccessKind", ["AccessKind"]);
   ("CommandInvocationWithIOVars", ["CommandInvocationWithIOVars"])].
Definition qualified (cls : string) : string :=
  if mem cls ["Mapper"; "Aggregator"] then para +++ cls +++ "." +++ cls
  else if String.eqb cls "Inputs" then "pash_annotations.annotation_generation.datatypes.Inputs.Inputs"
  else match find (fun p => mem cls (snd p)) modules with
       | Some (m, _) => datatypes +++ m +++ "." +++ cls
       | None => datatypes +++ cls
       end.

(** Members of enumerations: AccessKind.py:5-12, BasicDatatypes.py:33-36, AggregatorKind.py:3-15,
    Splitter.py:4-8.  [str] has no number; [repr], used inside lists and dicts, has it. *)
Definition access_number (a : access) : nat :=
  match a with
  | CONFIG_INPUT => 0 | STREAM_INPUT => 1 | CONTAINER_FOR_INPUT => 2 | EXCLUDES_FROM_INPUT => 3
  | OTHER_INPUT => 4 | STREAM_OUTPUT => 5 | OTHER_OUTPUT => 6
  end.
Definition std_number (d : std) : nat := match d with STDIN => 0 | STDOUT => 1 | STDERR => 2 end.
Definition agg_kind_number (k : agg_kind) : nat :=
  match k with
  | CONCATENATE => 1 | ADJ_LINES_MERGE => 2 | ADJ_LINES_SEQ => 3 | ADJ_LINES_FUNC => 4
  | CUSTOM_2_ARY => 5 | CUSTOM_N_ARY => 6
  end.
Definition splitter_number (s : splitter) : nat :=
  match s with INDIV_FILES => 1 | ROUND_ROBIN_PLAIN => 2 | ROUND_ROBIN_UNWRAP_FLAG => 3 | CONSEC_CHUNKS => 4 end.
Definition member (quoted : bool) (name : string) (n : nat) : string :=
  if quoted then "<" +++ name +++ ": " +++ decimal_nat n +++ ">" else name.

Fixpoint all_some {A} (l : list (option A)) : option (list A) :=
  match l with
  | [] => Some []
  | x :: l' => match x, all_some l' with Some a, Some r => Some (a :: r) | _, _ => None end
  end.

Section Text.
(** Where an object is: [hex(id(x))] *)
Variable address : loc -> string.
(** [str(v)], or [repr(v)] if [quoted].  [n] bounds the depth of the recursion; [None] if it does
    not suffice (then Python raises RecursionError or prints dots) or the reference dangles. *)
Fixpoint py_text (n : nat) (h : heap) (quoted : bool) (v : hval) : option string :=
  match v with
  | HNone => Some "None"
  | HInt z => Some (decimal z)
  | HStr s => Some (if quoted then repr_str s else s)
  | HAccess a => Some (member quoted ("AccessKindEnum." +++ access_name a) (access_number a))
  | HStd d => Some (member quoted ("StdDescriptorEnum." +++ std_name d) (std_number d))
  | HKind k => Some (member quoted ("AggregatorKindEnum." +++ agg_kind_name k) (agg_kind_number k))
  | HSplit k => Some (member quoted ("SplitterKindEnum." +++ splitter_name k) (splitter_number k))
  | HRef a =>
      match n with
      | O => None
      | S n' =>
          match nth_error h a with
          | Some (OList l) =>
              match all_some (map (py_text n' h true) l) with
              | Some ts => Some ("[" +++ join ts +++ "]")
              | None => None
              end
          | Some (ODict l) =>
              match all_some (map (fun p => py_text n' h true (snd p)) l) with
              | Some ts => Some ("{" +++ join (map (fun p => decimal (fst p) +++ ": " +++ snd p) (combine (map fst l) ts)) +++ "}")
              | None => None
              end
          | Some (OInst c l) =>
              if mem c without_repr then Some ("<" +++ qualified c +++ " object at " +++ address a +++ ">")
              else match all_some (map (fun p => py_text n' h false (snd p)) l) with
                   | Some ts => Some (standard_repr (qualified c) (combine (map fst l) ts))
                   | None => None
                   end
          | None => None
          end
      end
  end.
End Text.
