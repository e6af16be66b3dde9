(** * Specification of invocations with io variables *)
Require Import Verif.PyBase Verif.Access Verif.IOInfo Verif.IOVars Verif.Transformers Verif.SpecPara.

(** ** Variables and the rest *)
Definition var_of (x : pyval) : list Z := match x with PVar v => [v] | _ => [] end.
Definition option_args (l : list flag_el) : list pyval :=
  flat_map (fun f => match f with FOptIO _ a => [a] | _ => [] end) l.
(** Where the methods look for variables, in this order: arguments of [OptionWithIO],
    operands, implicit input, implicit output *)
Definition slots (c : civ) : list pyval := option_args (v_flags c) ++ v_ops c ++ [v_in c; v_out c].
Definition vars (c : civ) : list Z := flat_map var_of (slots c).

(** Everything but the accesses and which variable stands at the places in [slots]: two
    invocations with equal skeletons, variables and accesses are equal (C34_skeleton). *)
Definition blank (x : pyval) : pyval := match x with PVar _ => PVar 0 | _ => x end.
Definition blank_flag (f : flag_el) : flag_el :=
  match f with FOptIO n a => FOptIO n (blank a) | _ => f end.
Definition skeleton (c : civ) : string * list flag_el * list pyval * pyval * pyval :=
  (v_cmd c, map blank_flag (v_flags c), map blank (v_ops c), blank (v_in c), blank (v_out c)).

(** No variable occurs twice and every occurring variable has an access. *)
Definition consistent (c : civ) : Prop :=
  NoDup (vars c) /\ forall v, In v (vars c) -> v_acc c v <> None.
(** ... and nothing else has one. *)
Definition tight (c : civ) : Prop :=
  consistent c /\ forall v, v_acc c v <> None -> In v (vars c).

(** [with_access c a v]: the variable has access [a]. *)
Definition with_access (c : civ) (a : access) (v : Z) : Prop := v_acc c v = Some a.

(** [filled P l new l']: [l'] is [l] with the elements satisfying [P] replaced, in order, by
    the elements of [new], all of which are used. *)
Inductive filled (P : Z -> Prop) : list Z -> list Z -> list Z -> Prop :=
| filled_nil : filled P [] [] []
| filled_yes v w l new l' : P v -> filled P l new l' -> filled P (v :: l) (w :: new) (w :: l')
| filled_no v l new l' : ~ P v -> filled P l new l' -> filled P (v :: l) new (v :: l').

(** [moved old new m m']: the accesses of [old] have gone to [new], position by position;
    all else is as before. *)
Definition moved (old new : list Z) (m m' : amap) : Prop :=
  Forall2 (fun v w => m' w = m v) old new /\
  (forall v, In v old -> ~ In v new -> m' v = None) /\
  (forall v, ~ In v old -> ~ In v new -> m' v = m v).
(** [no_capture old new]: no new name is the name of something replaced later. *)
Inductive no_capture : list Z -> list Z -> Prop :=
| nc_nil : no_capture [] []
| nc_cons v w old new : ~ In w old -> no_capture old new -> no_capture (v :: old) (w :: new).

(** Substitution of the variables of one of the two streaming kinds *)
Definition substitute_streams (k : access) : civ -> list Z -> (civ * list Z) * result unit :=
  if access_eqb k STREAM_INPUT then substitute_inputs_in_cmd_invocation else substitute_outputs_in_cmd_invocation.

(** Pairwise different and not in use *)
Definition fresh_for (c : civ) (new : list Z) : Prop := NoDup new /\ forall w, In w new -> ~ In w (vars c).
(** The variable has an access for which [p] holds. *)
Definition selected (p : access -> bool) (c : civ) (v : Z) : Prop := exists a, v_acc c v = Some a /\ p a = true.

(** [x] is a variable with access [k]. *)
Definition has (c : civ) (k : access) (x : pyval) : Prop := exists v, x = PVar v /\ v_acc c v = Some k.
(** [y] is [x], unless it is a variable with access [k]. *)
Definition emptied (c : civ) (k : access) (x y : pyval) : Prop :=
  (has c k x /\ y = PNone) \/ (~ has c k x /\ y = x).
(** [c'] is [c] without the variables with access [k]; no option argument is one. *)
Definition removed (k : access) (c c' : civ) : Prop :=
  v_cmd c' = v_cmd c /\ v_flags c' = v_flags c /\ (forall x, In x (option_args (v_flags c)) -> ~ has c k x) /\
  kept (fun x => ~ has c k x) (v_ops c) (v_ops c') /\
  emptied c k (v_in c) (v_in c') /\ emptied c k (v_out c) (v_out c') /\
  (forall v, In v (vars c) -> v_acc c v = Some k -> v_acc c' v = None) /\
  (forall v, ~ (In v (vars c) /\ v_acc c v = Some k) -> v_acc c' v = v_acc c v).

(** Calls, failing or not, on one object *)
Inductive call : Type :=
| SubstituteInputs (new : list Z)
| SubstituteOutputs (new : list Z)
| SubstituteBoth (inputs outputs : list Z)
| ReplaceVar (from to : Z)
| RemoveStreamingInputs
| RemoveStreamingOutputs
| GenerateInputs
| GenerateOutputs
| HasOtherOutputs.
(** [performs c x c' ok]: call [x] leads from [c] to [c'], with or without an exception. *)
Definition is_ok {A} (r : result A) : bool := match r with Ok _ => true | Raise _ => false end.
Definition performs (c : civ) (x : call) (c' : civ) (ok : bool) : Prop :=
  match x with
  | SubstituteInputs new => exists r l, substitute_inputs_in_cmd_invocation c new = ((c', l), r) /\ ok = is_ok r
  | SubstituteOutputs new => exists r l, substitute_outputs_in_cmd_invocation c new = ((c', l), r) /\ ok = is_ok r
  | SubstituteBoth i o => exists r, substitute_inputs_and_outputs c i o = (c', r) /\ ok = is_ok r
  | ReplaceVar f t => exists r, replace_var c (PVar f) t = (c', r) /\ ok = is_ok r
  | RemoveStreamingInputs => exists r, remove_streaming_inputs c = (c', r) /\ ok = is_ok r
  | RemoveStreamingOutputs => exists r, remove_streaming_outputs c = (c', r) /\ ok = is_ok r
  | GenerateInputs => exists r, generate_inputs c = (c', r) /\ ok = is_ok r
  | GenerateOutputs => exists r, generate_outputs c = (c', r) /\ ok = is_ok r
  | HasOtherOutputs => exists r, has_other_outputs_vars c = (c', r) /\ ok = is_ok r
  end.
(** The variables a call introduces *)
Definition introduces (x : call) : list Z :=
  match x with
  | SubstituteInputs new | SubstituteOutputs new => new
  | SubstituteBoth i o => i ++ o
  | ReplaceVar _ t => [t]
  | _ => []
  end.
(** A history of successful calls, each of which introduces fresh variables only *)
Inductive history : civ -> list call -> civ -> Prop :=
| h_nil c : history c [] c
| h_call c x c' xs c'' : fresh_for c (introduces x) -> performs c x c' true -> history c' xs c'' ->
    history c (x :: xs) c''.
