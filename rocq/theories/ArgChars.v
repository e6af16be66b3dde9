(** * Model of format_arg_chars, format_arg_char and get_kv (datatypes/BasicDatatypes.py:130-175) *)
From Coq Require Import ZArith.
Require Import Verif.PyBase.

(** A Python string: its code points. *)
Definition text : Type := list Z.
Definition code (c : ascii) : Z := Z.of_nat (nat_of_ascii c).
Definition lit (s : string) : text := map code (list_ascii_of_string s).

(** An entry of the list: a list whose first element is the key ([AOther]: none of the keys
    below; [AShort]: fewer than two elements).  Simplifications: the values of B and the
    elements of the value of V are given as what [str] returns for them, and values of other
    types than the keys call for are not modelled. *)
Inductive arg_char : Type :=
| AC (val : Z)
| AB (val : text)
| AQ (val : list arg_char)
| AV (val : list text)
| AE (val : Z)
| AOther (key : text)
| AShort.

(** [chr].  Simplification: for integers that do not fit a C int Python raises OverflowError,
    here ValueError as well. *)
Definition chr (z : Z) : result text :=
  if Z.leb 0 z && Z.leb z 1114111 then Ok [z] else Raise ValueError.

(** BasicDatatypes.py:138-170, 174-175 (both branches for the key E are the same), and 130-132 *)
Fixpoint format_arg_char (a : arg_char) : result text :=
  match a with
  | AShort => Raise IndexError
  | AC val => chr val
  | AB val => Ok (lit "$(" ++ val ++ lit ")")
  | AQ val =>
      let! l := (fix format_all (l : list arg_char) : result (list text) :=
                   match l with
                   | [] => Ok []
                   | x :: l' => let! t := format_arg_char x in let! ts := format_all l' in Ok (t :: ts)
                   end) val in
      Ok (lit """" ++ List.concat l ++ lit """")
  | AV val => match nth_error val 2 with
              | None => Raise IndexError
              | Some v => Ok (lit "${" ++ v ++ lit "}")
              end
  | AE val => chr val
  | AOther _ => Raise NotImplementedError
  end.
Definition format_arg_chars (l : list arg_char) : result text :=
  let! ts := map_result format_arg_char l in Ok (List.concat ts).
