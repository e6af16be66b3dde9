(** * Running plans with auxiliary results
    Mappers and aggregators that are given their inputs and outputs as operands only
    (MapperSpec.py 81-97, AggregatorSpec.py 296-332), and the commands for pairs of adjacent
    lines.  It is the reading of C63. *)
Require Import Verif.PyBase Verif.JsonData Verif.Parser Verif.Access Verif.IOInfo Verif.IOVars
  Verif.Transformers Verif.ParaTypes Verif.ParaGen Verif.MapperAgg Verif.SpecLists Verif.SpecPara Verif.SpecVars Verif.SpecSem.

(** ** Running an invocation on files
    [positional]: what a command does with the files that are its operands.  It is given the
    contents of its operands and says, by position, what it writes to which of them.  It can
    only read operands that are streaming inputs, and only write streaming outputs. *)
Definition positional : Type := nat -> string -> list wflag -> list string -> list (nat * string).
Definition readable (c : civ) (s : store) (x : pyval) : string :=
  match x with
  | PVar v => match v_acc c v with Some STREAM_INPUT => s v | _ => "" end
  | PArg t => t
  | _ => ""
  end.
Definition put (v : Z) (text : string) (s : store) : store := fun w => if Z.eqb w v then text else s w.
Definition write_operand (c : civ) (s : store) (w : nat * string) : store :=
  match nth_error (v_ops c) (fst w) with
  | Some (PVar v) => match v_acc c v with Some STREAM_OUTPUT => put v (snd w) s | _ => s end
  | _ => s
  end.
Definition run_files (F : positional) (seed : nat) (c : civ) (s : store) : store :=
  fold_left (write_operand c)
    (F seed (v_cmd c) (map (wflag_of c s) (v_flags c)) (map (readable c s) (v_ops c))) s.

(** ** Plans: each process has a result and auxiliary results *)
Inductive aux_plan : Type :=
| ALeaf (part result : Z) (aux : list Z) (seed : nat)
| ANode (left right : aux_plan) (result : Z) (aux : list Z) (seed : nat).
Definition aux_root (t : aux_plan) : Z := match t with ALeaf _ y _ _ => y | ANode _ _ o _ _ => o end.
Definition aux_of (t : aux_plan) : list Z := match t with ALeaf _ _ l _ => l | ANode _ _ _ l _ => l end.
Fixpoint aux_parts (t : aux_plan) : list Z :=
  match t with ALeaf x _ _ _ => [x] | ANode l r _ _ _ => aux_parts l ++ aux_parts r end.
Fixpoint aux_vars (t : aux_plan) : list Z :=
  match t with
  | ALeaf x y l _ => x :: y :: l
  | ANode l r o aux _ => o :: aux ++ aux_vars l ++ aux_vars r
  end.
(** Every process has [n] auxiliary results. *)
Fixpoint aux_number (n : nat) (t : aux_plan) : Prop :=
  length (aux_of t) = n /\
  match t with ALeaf _ _ _ _ => True | ANode l r _ _ _ => aux_number n l /\ aux_number n r end.
Inductive aux_runs (F : positional) (dir : data_dir) (p : parallelizer) (c : civ) : store -> aux_plan -> store -> Prop :=
| ar_leaf s x y aux seed m :
    get_actual_mapper p c x y aux = Ok (Some m) ->
    aux_runs F dir p c s (ALeaf x y aux seed) (run_files F seed m s)
| ar_node s s1 s2 l r o aux seed k a :
    aux_runs F dir p c s l s1 -> aux_runs F dir p c s1 r s2 ->
    get_actual_2_ary_aggregator_with_aux dir (p_aggregator p) (aux_root l) (aux_of l) (aux_root r) (aux_of r) o aux = Ok (k, a) ->
    aux_runs F dir p c s (ANode l r o aux seed) (run_files F seed a s2).
Definition fresh_aux (c : civ) (t : aux_plan) : Prop :=
  NoDup (aux_vars t) /\ forall v, In v (aux_vars t) -> v_acc c v = None /\ ~ In v (vars c).

(** ** Pairs of adjacent lines *)
Definition tab : string := String (ascii_of_nat 9) "".
(** paste: corresponding lines, one of them empty where a file is exhausted *)
Fixpoint paste (l m : list string) : list string :=
  match l, m with
  | [], _ => map (fun y => tab +++ y) m
  | x :: l', [] => (x +++ tab) :: paste l' []
  | x :: l', y :: m' => (x +++ tab +++ y) :: paste l' m'
  end.
Definition line_pairs (l : list string) : list string := paste (removelast l) (tl l).
Definition bigrams (x : string) : string := unlines (line_pairs (lines x)).
Definition last_line (l : list string) : list string := match rev l with [] => [] | x :: _ => [x] end.

(** bigrams_aux: the pairs of its input.  bigram_aux_map: IN OUT HEAD TAIL, the pairs, the first
    and the last line.  bigram_aux_reduce: IN1 HEAD1 TAIL1 IN2 HEAD2 TAIL2 OUT HEAD TAIL. *)
Definition bigram_system (B : behaviour) (F : positional) : Prop :=
  (forall seed x, B seed "bigrams_aux" [] [] [x] = bigrams x) /\
  (forall seed x o1 o2 o3, exists h t, lines h = firstn 1 (lines x) /\ lines t = last_line (lines x) /\
     F seed "bigram_aux_map" [] [x; o1; o2; o3] = [(1, bigrams x); (2, h); (3, t)]) /\
  (forall seed i1 h1 t1 i2 h2 t2 o1 o2 o3,
     F seed "bigram_aux_reduce" [] [i1; h1; t1; i2; h2; t2; o1; o2; o3] =
     [(6, i1 +++ unlines (paste (lines t1) (lines h2)) +++ i2); (7, h1); (8, t2)]).

(** What plans give: the pairs within the parts and the pairs across each cut. *)
Fixpoint with_seams (parts : list (list string)) : list string :=
  match parts with
  | [] => []
  | [x] => line_pairs x
  | x :: ((y :: _) as rest) => line_pairs x ++ paste (last_line x) (firstn 1 y) ++ with_seams rest
  end.
