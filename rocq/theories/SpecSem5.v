(** * When the results of grep may be concatenated (C51) *)
Require Import Verif.PyBase Verif.SpecSem.

(** Either at most zero lines are asked for, and no count and no list of files without match
    is; or lines are printed as they are: nothing but matching lines, without numbers or
    offsets, and lines end with newlines. *)
Definition grep_safe (fl : list wflag) : Prop :=
  given fl ["--help"; "-V"] = false /\
  ((last_number fl ["-m"; "--max-count"] = Some 0 /\ (given fl ["-l"] = true \/ given fl ["-L"; "-c"] = false)) \/
   (last_number fl ["-m"; "--max-count"] = None /\ before fl = 0 /\ after fl = 0 /\
    given fl ["-l"; "-L"; "-c"; "-n"; "-b"; "-z"] = false)).
(** A grep that tells apart all that may be told apart: selected lines start with +, lines of
    context with -, numbers and offsets are given in unary. *)
Definition unary (n : nat) : string := String.concat "" (repeat "i" n).
Definition telling_grep : grep_oracle :=
  mkGrepOracle (fun fl _ x => xorb (given fl ["-v"]) (String.prefix "a" x))
    (fun _ _ n b sel x => [(if sel then "+" else "-") +++ match n with Some n => unary n +++ ":" | None => "" end +++
                           match b with Some b => unary b +++ ":" | None => "" end +++ x])
    (fun _ => ["--"]) (fun _ => "name") (fun _ n => unary n +++ ".") "usage".

(** ** sort (C50) *)
(** Orders that depend on chance: -R, --sort random and keys with the letter R *)
Definition random_flag (f : wflag) : bool :=
  match f with
  | WFlag n => String.eqb n "-R"
  | WOption n (WText w) => (String.eqb n "--sort" && String.eqb w "random") || (String.eqb n "-k" && has_char "R" w)
  | _ => false
  end.
Definition random_order (fl : list wflag) : bool := existsb random_flag fl.
(** All other orders do not. *)
Definition fair (o : sort_oracle) : Prop :=
  forall fl, random_order fl = false -> forall seed seed', key_le o seed fl = key_le o seed' fl.
