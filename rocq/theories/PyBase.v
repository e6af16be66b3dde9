(** * Python values used by all model files

    Exceptions are values; strings are Coq [string]s (code points up to 255).
    Definitions only, no proofs. *)
From Coq Require Export String Ascii List Bool Arith.
Export ListNotations.
Open Scope string_scope.
Open Scope list_scope.

(** String concatenation. *)
Infix "+++" := String.append (right associativity, at level 60) : string_scope.

(** Exception classes that the modelled code can raise.  [GenericException] is a
    bare [raise Exception(...)], [IOError_] any [OSError] other than
    [FileNotFoundError]. *)
Inductive exn : Type :=
| IndexError | KeyError | ValueError | AssertionError | TypeError
| NotImplementedError | GenericException | FileNotFoundError | IOError_.

(** Outcome of a Python call. *)
Inductive result (A : Type) : Type :=
| Ok (a : A)
| Raise (e : exn).
Arguments Ok {A} a.
Arguments Raise {A} e.

Definition bind {A B} (x : result A) (f : A -> result B) : result B :=
  match x with Ok a => f a | Raise e => Raise e end.

Notation "'let!' x ':=' e1 'in' e2" := (bind e1 (fun x => e2))
  (at level 200, x pattern, e1 at level 100, e2 at level 200, right associativity).

(** [assert b] *)
Definition assert_ (b : bool) : result unit := if b then Ok tt else Raise AssertionError.

(** [try: ... except Exception: return None] *)
Definition except_none {A} (x : result A) : option A :=
  match x with Ok a => Some a | Raise _ => None end.

(** [x in list_of_strings], also membership in a Python [set] of strings. *)
Definition mem (x : string) (l : list string) : bool := existsb (String.eqb x) l.

(** A Python [dict] with string keys as an association list, latest write first. *)
Definition dict (V : Type) : Type := list (string * V).
Fixpoint dict_find {V} (d : dict V) (k : string) : option V :=
  match d with
  | [] => None
  | (k', v) :: d' => if String.eqb k k' then Some v else dict_find d' k
  end.
(** [d.get(k, default)] *)
Definition dict_get_default {V} (d : dict V) (k : string) (default : V) : V :=
  match dict_find d k with Some v => v | None => default end.
(** [d[k]] *)
Definition dict_get {V} (d : dict V) (k : string) : result V :=
  match dict_find d k with Some v => Ok v | None => Raise KeyError end.
(** [d[k] = v] *)
Definition dict_set {V} (d : dict V) (k : string) (v : V) : dict V := (k, v) :: d.

(** [list(s)]: the characters of a string as one-character strings. *)
Definition one_char (c : ascii) : string := String c EmptyString.
Fixpoint chars (s : string) : list string :=
  match s with
  | EmptyString => []
  | String c s' => one_char c :: chars s'
  end.

(** [a in l] for lists of names, i.e. at least one element of [l] satisfies [p]. *)
Definition nonempty {A} (l : list A) : bool := match l with [] => false | _ => true end.

(** A [for] loop whose body may raise, collecting results. *)
Fixpoint map_result {A B} (f : A -> result B) (l : list A) : result (list B) :=
  match l with
  | [] => Ok []
  | x :: l' => let! y := f x in let! ys := map_result f l' in Ok (y :: ys)
  end.
