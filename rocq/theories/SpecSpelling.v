(** * Different ways of writing the same command line (C91) *)
Require Import Verif.PyBase Verif.Parser Verif.SpecGetopt.

(** The command finds the option with the name [n], in whatever spelling. *)
Definition finds (os : list found) (n : string) : Prop := exists g a ar, In (g, a) os /\ In (n, ar) g.
(** Names under which parse reports an option that the generators know under another name only *)
Definition other_names (name : string) : list string :=
  match name with
  | "grep" => ["--regexp"; "--after-context"; "--before-context"; "--context"; "--max-count"]
  | "tr" => ["-C"]
  | _ => []
  end%string.
