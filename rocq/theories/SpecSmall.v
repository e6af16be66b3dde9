(** * Specification of accessors and small containers *)
Require Import Verif.PyBase Verif.Access Verif.IOInfo Verif.IOVars Verif.SpecVars Verif.Small.

(** Operands as the signature of CommandInvocationWithIOVars says (lines 20): variables and strings. *)
Definition var_or_string (x : pyval) : Prop := (exists v, x = PVar v) \/ exists s, x = PArg s.
(** The accessor for the operands with this access *)
Definition accessor (k : access) : option (civ -> list pyval) :=
  match k with
  | STREAM_INPUT => Some civ_operands_with_stream_input
  | OTHER_INPUT => Some civ_operands_with_other_input
  | STREAM_OUTPUT => Some civ_operands_with_stream_output
  | OTHER_OUTPUT => Some civ_operands_with_other_output
  | _ => None
  end.
(** A history of [set_property], the latest call first *)
Fixpoint latest {A} (d : properties A) (calls : list (string * A)) (name : string) (v : option A) : Prop :=
  match calls with
  | [] => (forall w, v = Some w <-> exists l l', d = l ++ (name, w) :: l' /\ ~ In name (map fst l))
  | (n, w) :: calls' => (n = name /\ v = Some w) \/ (n <> name /\ latest d calls' name v)
  end.
