(** * Model of pash_annotations/datatypes/CommandInvocationWithIOVars.py *)
From Coq Require Export ZArith.
Require Import Verif.PyBase Verif.Access Verif.IOInfo.

(** What can stand in an argument position: [None], an [IOVar]
    (BasicDatatypesWithIOVar.py:4, a Python [int]), an [ArgStringType] or a file name or
    descriptor with access (only in arguments of [OptionWithIO]).  Simplification: [bool],
    a subclass of [int], is not represented. *)
Inductive pyval : Type :=
| PNone
| PVar (v : Z)
| PArg (s : string)
| PRes (r : resource).

(** Elements of the flag and option list: [Flag] (BasicDatatypes.py:69-75),
    [OptionWithIOVar] (BasicDatatypesWithIOVar.py:6-19) and [OptionWithIO]
    (BasicDatatypesWithIO.py:80-93). *)
Inductive flag_el : Type :=
| FFlag (name : string)
| FOptVar (name : string) (arg : pyval)
| FOptIO (name : string) (arg : pyval).

(** [get_name] of the three classes *)
Definition fe_name (f : flag_el) : string :=
  match f with FFlag n => n | FOptVar n _ => n | FOptIO n _ => n end.

(** [access_map]: a dict with [IOVar] keys.  Simplification: the order of insertion and
    finiteness are not represented. *)
Definition amap : Type := Z -> option access.
(** [{}] *)
Definition am_empty : amap := fun _ => None.
(** [d[k] = a] *)
Definition am_set (m : amap) (k : Z) (a : access) : amap :=
  fun v => if Z.eqb v k then Some a else m v.
(** [del d[k]], the effect of [d.pop(k)] *)
Definition am_del (m : amap) (k : Z) : amap :=
  fun v => if Z.eqb v k then None else m v.

(** CommandInvocationWithIOVars.py:17-30.  The constructor deep-copies, which has no
    effect on values; sharing is treated in Heap.v. *)
Record civ : Type := mkCiv
  { v_cmd : string; v_flags : list flag_el; v_ops : list pyval;
    v_in : pyval; v_out : pyval; v_acc : amap }.

Definition with_cmd (n : string) (c : civ) : civ :=
  mkCiv n (v_flags c) (v_ops c) (v_in c) (v_out c) (v_acc c).
Definition with_flags (l : list flag_el) (c : civ) : civ :=
  mkCiv (v_cmd c) l (v_ops c) (v_in c) (v_out c) (v_acc c).
Definition with_ops (l : list pyval) (c : civ) : civ :=
  mkCiv (v_cmd c) (v_flags c) l (v_in c) (v_out c) (v_acc c).
Definition with_in (x : pyval) (c : civ) : civ :=
  mkCiv (v_cmd c) (v_flags c) (v_ops c) x (v_out c) (v_acc c).
Definition with_out (x : pyval) (c : civ) : civ :=
  mkCiv (v_cmd c) (v_flags c) (v_ops c) (v_in c) x (v_acc c).
Definition with_acc (m : amap) (c : civ) : civ :=
  mkCiv (v_cmd c) (v_flags c) (v_ops c) (v_in c) (v_out c) m.

(** ** Code with effects
    What the functions passed to the traversals read and write: [self.access_map] and one
    list captured by the closure ([inputs_from], [outputs_to], [streaming_inputs],
    [outputs]).  The state is also kept when an exception is raised. *)
Definition env : Type := amap * list Z.
Definition eff (A : Type) : Type := env -> env * result A.
Definition ret {A} (a : A) : eff A := fun e => (e, Ok a).
Definition throw {A} (x : exn) : eff A := fun e => (e, Raise x).
Definition ebind {A B} (m : eff A) (f : A -> eff B) : eff B :=
  fun e => match m e with (e', Ok a) => f a e' | (e', Raise x) => (e', Raise x) end.
Notation "'do!' x ':=' e1 'in' e2" := (ebind e1 (fun x => e2))
  (at level 200, x pattern, e1 at level 100, e2 at level 200, right associativity).

(** [self.access_map[var]] *)
Definition access_of (v : Z) : eff access :=
  fun e => match fst e v with Some a => (e, Ok a) | None => (e, Raise KeyError) end.
(** [lst.pop(0)] *)
Definition pop0 : eff Z :=
  fun e => match snd e with [] => (e, Raise IndexError) | x :: l => ((fst e, l), Ok x) end.
(** [lst.append(x)] *)
Definition append_el (x : Z) : eff unit := fun e => ((fst e, snd e ++ [x]), Ok tt).
(** [self.access_map.pop(var)] *)
Definition pop_access (v : Z) : eff access :=
  fun e => match fst e v with
           | Some a => ((am_del (fst e) v, snd e), Ok a)
           | None => (e, Raise KeyError)
           end.
(** [self.access_map[var] = a] *)
Definition set_access (v : Z) (a : access) : eff unit :=
  fun e => ((am_set (fst e) v a, snd e), Ok tt).

(** CommandInvocationWithIOVars.py:106-109 *)
Definition replace_var_consistently (from_var to_var : Z) : eff Z :=
  fun e => match fst e from_var with
           | None => (e, Raise AssertionError)
           | Some _ => (do! a := pop_access from_var in
                        do! _ := set_access to_var a in
                        ret to_var) e
           end.

(** ** Traversals *)

(** CommandInvocationWithIOVars.py:115-124: the loop; [[x] = f(arg)] raises [ValueError]
    unless the result has exactly one element. *)
Fixpoint loop_flags (f : pyval -> eff (list pyval)) (l : list flag_el) : eff (list flag_el) :=
  match l with
  | [] => ret []
  | FOptIO n a :: l' =>
      do! r := f a in
      match r with
      | [x] => do! l'' := loop_flags f l' in ret (FOptIO n x :: l'')
      | _ => throw ValueError
      end
  | x :: l' => do! l'' := loop_flags f l' in ret (x :: l'')
  end.

(** CommandInvocationWithIOVars.py:126-130: the loop *)
Fixpoint loop_ops (f : pyval -> eff (list pyval)) (l : list pyval) : eff (list pyval) :=
  match l with
  | [] => ret []
  | x :: l' => do! r := f x in do! l'' := loop_ops f l' in ret (r ++ l'')
  end.

(** CommandInvocationWithIOVars.py:132-146: the value assigned *)
Definition visit_implicit (f : pyval -> eff (list pyval)) (x : pyval) : eff pyval :=
  do! r := f x in
  match r with
  | [] => ret PNone
  | [y] => ret y
  | _ => throw AssertionError
  end.

(** A method of the class: acts on the object and the captured list, which both keep what
    was written before an exception. *)
Definition method (A : Type) : Type := civ * list Z -> (civ * list Z) * result A.

(** Run a traversal and assign its result to a field. *)
Definition assign {A} (t : eff A) (set : A -> civ -> civ) : method unit :=
  fun '(c, l) => match t (v_acc c, l) with
                 | ((m, l'), Ok x) => ((set x (with_acc m c), l'), Ok tt)
                 | ((m, l'), Raise e) => ((with_acc m c, l'), Raise e)
                 end.
Definition then_ {A B} (p : method A) (q : method B) : method B :=
  fun s => match p s with (s', Ok _) => q s' | (s', Raise e) => (s', Raise e) end.

(** CommandInvocationWithIOVars.py:150-154 *)
Definition flat_map_anything_non_names (f : pyval -> eff (list pyval)) : method unit :=
  then_ (fun s => assign (loop_flags f (v_flags (fst s))) with_flags s)
  (then_ (fun s => assign (loop_ops f (v_ops (fst s))) with_ops s)
  (then_ (fun s => assign (visit_implicit f (v_in (fst s))) with_in s)
         (fun s => assign (visit_implicit f (v_out (fst s))) with_out s))).

(** CommandInvocationWithIOVars.py:156-158 *)
Definition map_var (g : Z -> eff Z) : method unit :=
  flat_map_anything_non_names
    (fun el => match el with
               | PVar v => do! w := g v in ret [PVar w]
               | _ => ret [el]
               end).

(** ** Methods *)

(** CommandInvocationWithIOVars.py:59-64, 69-74: [function_to_apply_to_vars] *)
Definition substitute_fun (is_kind : access -> bool) (v : Z) : eff Z :=
  do! a := access_of v in
  if is_kind a then do! new_var := pop0 in replace_var_consistently v new_var
  else ret v.

(** CommandInvocationWithIOVars.py:58-66 and 68-76.  Returns also what is left of the
    caller's list, which is emptied by [pop]. *)
Definition substitute (is_kind : access -> bool) : method unit :=
  then_ (map_var (substitute_fun is_kind))
        (fun s => match snd s with [] => (s, Ok tt) | _ => (s, Raise AssertionError) end).
Definition substitute_inputs_in_cmd_invocation (c : civ) (inputs_from : list Z)
  : (civ * list Z) * result unit := substitute is_stream_input (c, inputs_from).
Definition substitute_outputs_in_cmd_invocation (c : civ) (outputs_to : list Z)
  : (civ * list Z) * result unit := substitute is_stream_output (c, outputs_to).

(** CommandInvocationWithIOVars.py:52-56 *)
Definition substitute_inputs_and_outputs (c : civ) (inputs_from outputs_to : list Z) : civ * result unit :=
  match substitute_inputs_in_cmd_invocation c inputs_from with
  | ((c', _), Raise e) => (c', Raise e)
  | ((c', _), Ok _) =>
      match substitute_outputs_in_cmd_invocation c' outputs_to with
      | ((c'', _), r) => (c'', r)
      end
  end.

(** CommandInvocationWithIOVars.py:80-83, 90-93, 99-102: [function_to_apply] *)
Definition collect_fun (p : access -> bool) (v : Z) : eff Z :=
  do! a := access_of v in
  do! _ := (if p a then append_el v else ret tt) in
  ret v.
(** Runs [map_var] with a fresh list. *)
Definition collect (p : access -> bool) (c : civ) : civ * result (list Z) :=
  match map_var (collect_fun p) (c, []) with
  | ((c', l), Ok _) => (c', Ok l)
  | ((c', _), Raise e) => (c', Raise e)
  end.

(** CommandInvocationWithIOVars.py:78-86; the two components of [Inputs.values] *)
Definition generate_inputs (c : civ) : civ * result (list Z * list Z) :=
  match collect is_stream_input c with
  | (c', Ok l) => (c', Ok ([], l))
  | (c', Raise e) => (c', Raise e)
  end.
(** CommandInvocationWithIOVars.py:88-95 *)
Definition generate_outputs (c : civ) : civ * result (list Z) := collect is_any_output c.
(** CommandInvocationWithIOVars.py:97-104 *)
Definition has_other_outputs_vars (c : civ) : civ * result bool :=
  match collect is_other_output c with
  | (c', Ok l) => (c', Ok (Nat.ltb 0 (length l)))
  | (c', Raise e) => (c', Raise e)
  end.

(** CommandInvocationWithIOVars.py:111-113.  [from_var] may be [None], in which case no
    variable equals it; [to_var] is a variable. *)
Definition replace_var (c : civ) (from_var : pyval) (to_var : Z) : civ * result unit :=
  match map_var (fun el => match from_var with
                           | PVar f => if Z.eqb el f then replace_var_consistently f to_var else ret el
                           | _ => ret el
                           end) (c, []) with
  | ((c', _), r) => (c', r)
  end.

(** CommandInvocationWithIOVars.py:176-181, 186-191: [function_to_apply] *)
Definition remove_fun (is_kind : access -> bool) (el : pyval) : eff (list pyval) :=
  match el with
  | PVar v =>
      do! a := access_of v in
      if is_kind a then do! _ := pop_access v in ret [] else ret [el]
  | _ => ret [el]
  end.
Definition remove_streaming (is_kind : access -> bool) (c : civ) : civ * result unit :=
  match flat_map_anything_non_names (remove_fun is_kind) (c, []) with
  | ((c', _), r) => (c', r)
  end.
(** CommandInvocationWithIOVars.py:174-182 *)
Definition remove_streaming_inputs : civ -> civ * result unit := remove_streaming is_stream_input.
(** CommandInvocationWithIOVars.py:184-192 *)
Definition remove_streaming_outputs : civ -> civ * result unit := remove_streaming is_stream_output.

(** [{k: a for k in keys}] added to a dict *)
Definition am_of (keys : list Z) (a : access) (m : amap) : amap :=
  fold_left (fun m k => am_set m k a) keys m.

(** CommandInvocationWithIOVars.py:162-172 *)
Definition make_cat (input_ids : list Z) (output_id : Z) : civ :=
  mkCiv "cat" [] (map PVar input_ids) PNone (PVar output_id)
    (am_set (am_of input_ids STREAM_INPUT am_empty) output_id STREAM_OUTPUT).
