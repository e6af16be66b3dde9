(** * Objects and references: the methods of CommandInvocationWithIOVars, MapperSpec and
    AggregatorSpec once more, with the identity of objects
    IOVars.v and MapperAgg.v describe values.  Here every list, dict and instance is a cell of
    a heap, so that sharing between the original invocation and the results is visible. *)
Require Import Verif.PyBase Verif.JsonData Verif.Parser Verif.Access Verif.IOInfo Verif.IOVars
  Verif.Transformers Verif.ParaTypes.

(** ** Objects *)
Definition loc : Type := nat.
(** Immutable values and references.  Members of an [Enum] are immutable and are copied to
    themselves. *)
Inductive hval : Type :=
| HNone
| HInt (v : Z)
| HStr (s : string)
| HAccess (a : access)
| HStd (s : std)
| HKind (k : agg_kind)
| HSplit (k : splitter)
| HRef (l : loc).
(** A list, a dict with integer keys in the order of insertion, or an instance: its class and
    its [__dict__].  Simplification: the keys of the access map are integers (other keys
    cannot be represented). *)
Inductive obj : Type :=
| OList (l : list hval)
| ODict (l : list (Z * hval))
| OInst (cls : string) (attrs : list (string * hval)).
(** References are positions in the heap.  Nothing is ever freed. *)
Definition heap : Type := list obj.

(** The values held by an object, and the object of the same form with other values *)
Definition slots (o : obj) : list hval :=
  match o with OList l => l | ODict l => map snd l | OInst _ l => map snd l end.
Definition refill (o : obj) (vs : list hval) : obj :=
  match o with
  | OList _ => OList vs
  | ODict l => ODict (combine (map fst l) vs)
  | OInst c l => OInst c (combine (map fst l) vs)
  end.

(** ** Programs *)
Definition hm (A : Type) : Type := heap -> heap * result A.
Definition hret {A} (a : A) : hm A := fun h => (h, Ok a).
Definition hthrow {A} (e : exn) : hm A := fun h => (h, Raise e).
Definition hbind {A B} (m : hm A) (f : A -> hm B) : hm B :=
  fun h => match m h with (h', Ok a) => f a h' | (h', Raise e) => (h', Raise e) end.
Notation "'run!' x ':=' e1 'in' e2" := (hbind e1 (fun x => e2))
  (at level 200, x pattern, e1 at level 100, e2 at level 200, right associativity).
(** A computation without effect on the heap *)
Definition hlift {A} (r : result A) : hm A := fun h => (h, r).

Fixpoint update {A} (l : list A) (n : nat) (x : A) : list A :=
  match l, n with
  | [], _ => []
  | _ :: l', O => x :: l'
  | y :: l', S n' => y :: update l' n' x
  end.
Definition alloc (o : obj) : hm hval := fun h => (h ++ [o], Ok (HRef (length h))).
(** A value that is not a reference to an object of the expected form: [TypeError] *)
Definition get_obj (v : hval) : hm (loc * obj) :=
  fun h => match v with
           | HRef l => match nth_error h l with Some o => (h, Ok (l, o)) | None => (h, Raise TypeError) end
           | _ => (h, Raise TypeError)
           end.
Definition put_obj (l : loc) (o : obj) : hm unit := fun h => (update h l o, Ok tt).

Definition assoc_s := fix go (l : list (string * hval)) (k : string) : option hval :=
  match l with [] => None | (k', v) :: l' => if String.eqb k' k then Some v else go l' k end.
Definition assoc_z := fix go (l : list (Z * hval)) (k : Z) : option hval :=
  match l with [] => None | (k', v) :: l' => if Z.eqb k' k then Some v else go l' k end.
Definition set_s := fix go (l : list (string * hval)) (k : string) (v : hval) : list (string * hval) :=
  match l with
  | [] => [(k, v)]
  | (k', w) :: l' => if String.eqb k' k then (k', v) :: l' else (k', w) :: go l' k v
  end.
Definition set_z := fix go (l : list (Z * hval)) (k : Z) (v : hval) : list (Z * hval) :=
  match l with
  | [] => [(k, v)]
  | (k', w) :: l' => if Z.eqb k' k then (k', v) :: l' else (k', w) :: go l' k v
  end.
Definition del_z (l : list (Z * hval)) (k : Z) : list (Z * hval) :=
  filter (fun p => negb (Z.eqb (fst p) k)) l.

(** [x.name] *)
Definition get_attr (x : hval) (name : string) : hm hval :=
  run! (_, o) := get_obj x in
  match o with
  | OInst _ attrs => match assoc_s attrs name with Some v => hret v | None => hthrow TypeError end
  | _ => hthrow TypeError
  end.
(** [x.name = v] *)
Definition set_attr (x : hval) (name : string) (v : hval) : hm unit :=
  run! (l, o) := get_obj x in
  match o with
  | OInst c attrs => put_obj l (OInst c (set_s attrs name v))
  | _ => hthrow TypeError
  end.
(** [x.cmd_name].  Simplification: a name that is not a string is a [TypeError] here. *)
Definition get_cmd_name (x : hval) : hm string :=
  run! v := get_attr x "cmd_name" in
  match v with HStr s => hret s | _ => hthrow TypeError end.
(** the elements of a list *)
Definition items (x : hval) : hm (list hval) :=
  run! (_, o) := get_obj x in
  match o with OList l => hret l | _ => hthrow TypeError end.
(** the entries of a dict, [d[k]], [d[k] = v], [d.pop(k)] *)
Definition entries (x : hval) : hm (loc * list (Z * hval)) :=
  run! (l, o) := get_obj x in
  match o with ODict es => hret (l, es) | _ => hthrow TypeError end.
Definition dict_get (d : hval) (k : Z) : hm hval :=
  run! (_, es) := entries d in
  match assoc_z es k with Some v => hret v | None => hthrow KeyError end.
Definition dict_set (d : hval) (k : Z) (v : hval) : hm unit :=
  run! (l, es) := entries d in put_obj l (ODict (set_z es k v)).
Definition dict_pop (d : hval) (k : Z) : hm hval :=
  run! (l, es) := entries d in
  match assoc_z es k with
  | Some v => run! _ := put_obj l (ODict (del_z es k)) in hret v
  | None => hthrow KeyError
  end.
Definition dict_has (d : hval) (k : Z) : hm bool :=
  run! (_, es) := entries d in hret (match assoc_z es k with Some _ => true | None => false end).
(** [lst.pop(0)] *)
Definition list_pop0 (x : hval) : hm hval :=
  run! (l, o) := get_obj x in
  match o with
  | OList (v :: vs) => run! _ := put_obj l (OList vs) in hret v
  | OList [] => hthrow IndexError
  | _ => hthrow TypeError
  end.
(** the class of an object, [None] for other values *)
Definition class_of (x : hval) : hm (option string) :=
  fun h => (h, Ok (match x with
                   | HRef l => match nth_error h l with Some (OInst c _) => Some c | _ => None end
                   | _ => None
                   end)).
(** a variable *)
Definition as_int (x : hval) : hm Z := match x with HInt v => hret v | _ => hthrow TypeError end.

(** [for x in l] *)
Fixpoint hmap {A B} (f : A -> hm B) (l : list A) : hm (list B) :=
  match l with
  | [] => hret []
  | x :: l' => run! y := f x in run! ys := hmap f l' in hret (y :: ys)
  end.
Fixpoint hiter {A} (f : A -> hm unit) (l : list A) : hm unit :=
  match l with [] => hret tt | x :: l' => run! _ := f x in hiter f l' end.

(** ** copy.deepcopy
    Every call has its own memo, from the objects copied so far to their copies.  An object
    is entered in the memo before its values are copied.  Simplification: the copy is filled
    at the end instead of value by value; it is not read in between.  [n] bounds the depth of
    the recursion; P_Heap shows that the bound is never reached. *)
Definition memo : Type := list (loc * loc).
Definition memo_get := fix go (m : memo) (l : loc) : option loc :=
  match m with [] => None | (a, b) :: m' => if Nat.eqb a l then Some b else go m' l end.
Definition cstate : Type := heap * memo.
Fixpoint copy_all (f : hval -> cstate -> cstate * option hval) (vs : list hval) (st : cstate)
  : cstate * option (list hval) :=
  match vs with
  | [] => (st, Some [])
  | v :: vs' =>
      match f v st with
      | (st', None) => (st', None)
      | (st', Some w) =>
          match copy_all f vs' st' with
          | (st'', Some ws) => (st'', Some (w :: ws))
          | (st'', None) => (st'', None)
          end
      end
  end.
Fixpoint copy_val (n : nat) (v : hval) (st : cstate) : cstate * option hval :=
  match v with
  | HRef l =>
      match memo_get (snd st) l with
      | Some l' => (st, Some (HRef l'))
      | None =>
          match n, nth_error (fst st) l with
          | S n', Some o =>
              let l' := length (fst st) in
              match copy_all (copy_val n') (slots o) (fst st ++ [refill o []], (l, l') :: snd st) with
              | ((h', m'), Some vs) => ((update h' l' (refill o vs), m'), Some (HRef l'))
              | (st', None) => (st', None)
              end
          | _, _ => (st, None)
          end
      end
  | _ => (st, Some v)
  end.
Definition deepcopy (v : hval) : hm hval :=
  fun h => match copy_val (S (length h)) v (h, []) with
           | ((h', _), Some w) => (h', Ok w)
           | ((h', _), None) => (h', Raise GenericException)
           end.

(** ** CommandInvocationWithIOVars.py *)

(** AccessKind.py:54-73 *)
Definition new_access (a : access) : hm hval := alloc (OInst "AccessKind" [("kind", HAccess a)]).
(** BasicDatatypesWithIO.py:83-85 *)
Definition new_option_with_io (name arg : hval) : hm hval :=
  alloc (OInst "OptionWithIO" [("option_name", name); ("option_arg", arg)]).

(** CommandInvocationWithIOVars.py:17-30, Mapper.py:14-28, Aggregator.py:15-26: every argument
    except the name is deep-copied.  Simplification: the instance is created after the
    copies.  [extra]: the kind of an aggregator. *)
Definition new_invocation (cls : string) (extra : option agg_kind) (cmd : string) (fl ol i o am : hval) : hm hval :=
  run! fl' := deepcopy fl in
  run! ol' := deepcopy ol in
  run! i' := deepcopy i in
  run! o' := deepcopy o in
  run! am' := deepcopy am in
  alloc (OInst cls (match extra with Some k => [("kind", HKind k)] | None => [] end ++
                             [("cmd_name", HStr cmd); ("flag_option_list", fl'); ("operand_list", ol');
                              ("implicit_use_of_streaming_input", i'); ("implicit_use_of_streaming_output", o');
                              ("access_map", am')])).

(** [self.access_map[var].kind] *)
Definition access_of_h (self : hval) (v : Z) : hm access :=
  run! d := get_attr self "access_map" in
  run! a := dict_get d v in
  run! k := get_attr a "kind" in
  match k with HAccess a => hret a | _ => hthrow TypeError end.
(** CommandInvocationWithIOVars.py:106-109 *)
Definition replace_var_consistently_h (self : hval) (from_var to_var : Z) : hm hval :=
  run! d := get_attr self "access_map" in
  run! b := dict_has d from_var in
  if negb b then hthrow AssertionError
  else
    run! a := dict_pop d from_var in
    run! _ := dict_set d to_var a in
    hret (HInt to_var).

(** CommandInvocationWithIOVars.py:115-124.  The lists returned by [f] are not put on the
    heap.  Simplification, here and below: a list that is traversed is read once, at the
    start (no function passed as [f] in the modelled code changes the traversed list). *)
Definition visit_flag_h (f : hval -> hm (list hval)) (x : hval) : hm hval :=
  run! c := class_of x in
  match c with
  | Some c' =>
      if String.eqb c' "OptionWithIO" then
        run! a := get_attr x "option_arg" in
        run! r := f a in
        match r with
        | [y] => run! n := get_attr x "option_name" in new_option_with_io n y
        | _ => hthrow ValueError
        end
      else hret x
  | None => hret x
  end.
Definition visit_flags_h (self : hval) (f : hval -> hm (list hval)) : hm unit :=
  run! fl := get_attr self "flag_option_list" in
  run! l := items fl in
  run! l' := hmap (visit_flag_h f) l in
  run! x := alloc (OList l') in
  set_attr self "flag_option_list" x.
(** CommandInvocationWithIOVars.py:126-130 *)
Definition visit_operands_h (self : hval) (f : hval -> hm (list hval)) : hm unit :=
  run! ol := get_attr self "operand_list" in
  run! l := items ol in
  run! l' := hmap f l in
  run! x := alloc (OList (List.concat l')) in
  set_attr self "operand_list" x.
(** CommandInvocationWithIOVars.py:132-146 *)
Definition visit_implicit_h (self : hval) (f : hval -> hm (list hval)) (name : string) : hm unit :=
  run! x := get_attr self name in
  run! r := f x in
  match r with
  | [] => set_attr self name HNone
  | [y] => set_attr self name y
  | _ => hthrow AssertionError
  end.
(** CommandInvocationWithIOVars.py:150-154 *)
Definition flat_map_h (self : hval) (f : hval -> hm (list hval)) : hm unit :=
  run! _ := visit_flags_h self f in
  run! _ := visit_operands_h self f in
  run! _ := visit_implicit_h self f "implicit_use_of_streaming_input" in
  visit_implicit_h self f "implicit_use_of_streaming_output".
(** CommandInvocationWithIOVars.py:156-158 *)
Definition map_var_h (self : hval) (g : Z -> hm hval) : hm unit :=
  flat_map_h self (fun x => match x with
                            | HInt v => run! y := g v in hret [y]
                            | _ => hret [x]
                            end).

(** CommandInvocationWithIOVars.py:58-66 and 68-76; [lst] is the list passed by the caller,
    from which [pop] removes. *)
Definition substitute_h (is_kind : access -> bool) (self lst : hval) : hm unit :=
  run! _ := map_var_h self (fun v =>
    run! a := access_of_h self v in
    if is_kind a then
      run! x := list_pop0 lst in
      run! new_var := as_int x in
      replace_var_consistently_h self v new_var
    else hret (HInt v)) in
  run! rest := items lst in
  match rest with [] => hret tt | _ => hthrow AssertionError end.
(** CommandInvocationWithIOVars.py:52-56 *)
Definition substitute_inputs_and_outputs_h (self inputs_from outputs_to : hval) : hm unit :=
  run! _ := substitute_h is_stream_input self inputs_from in
  substitute_h is_stream_output self outputs_to.

(** CommandInvocationWithIOVars.py:111-113 *)
Definition replace_var_h (self from_var : hval) (to_var : Z) : hm unit :=
  map_var_h self (fun v =>
    match from_var with
    | HInt w => if Z.eqb v w then replace_var_consistently_h self w to_var else hret (HInt v)
    | _ => hret (HInt v)
    end).

(** CommandInvocationWithIOVars.py:174-182, 184-192 *)
Definition remove_streaming_h (is_kind : access -> bool) (self : hval) : hm unit :=
  flat_map_h self (fun x =>
    match x with
    | HInt v =>
        run! a := access_of_h self v in
        if is_kind a then
          run! d := get_attr self "access_map" in
          run! _ := dict_pop d v in
          hret []
        else hret [x]
    | _ => hret [x]
    end).

(** [{k: AccessKind(a) for k in l}] added to a dict; also the loops of MapperSpec.py:93-94 and
    AggregatorSpec.py:318-321 *)
Definition add_accesses (d : hval) (a : access) (l : list hval) : hm unit :=
  hiter (fun x => run! k := as_int x in run! r := new_access a in dict_set d k r) l.
(** CommandInvocationWithIOVars.py:162-172 *)
Definition make_cat_h (input_ids : hval) (output_id : Z) : hm hval :=
  run! l := items input_ids in
  run! d := alloc (ODict []) in
  run! _ := add_accesses d STREAM_INPUT l in
  run! _ := add_accesses d STREAM_OUTPUT [HInt output_id] in
  run! fl := alloc (OList []) in
  new_invocation "CommandInvocationWithIOVars" None "cat" fl input_ids HNone (HInt output_id) d.

(** ** TransformerFlagOptionList.py
    The lists of flags held by a transformer are objects of the heap. *)
Inductive htransformer : Type :=
| HTSeq
| HTAdd (list_to_add : hval)
| HTRemove (list_to_remove : list string)
| HTFilter (list_filter : list string)
| HTEmpty
| HTCustom (list_custom : hval)
| HTChain (list_transformers : list htransformer).

(** What an object of the heap stands for in IOVars.v *)
Definition attr (h : heap) (x : hval) (cls name : string) : option hval :=
  match x with
  | HRef l => match nth_error h l with
              | Some (OInst c attrs) => if String.eqb c cls then assoc_s attrs name else None
              | _ => None
              end
  | _ => None
  end.
Definition view_access (h : heap) (x : hval) : option access :=
  match attr h x "AccessKind" "kind" with Some (HAccess a) => Some a | _ => None end.
Definition view_val (h : heap) (x : hval) : option pyval :=
  match x with
  | HNone => Some PNone
  | HInt v => Some (PVar v)
  | HRef _ =>
      match attr h x "ArgStringType" "name" with
      | Some (HStr s) => Some (PArg s)
      | Some _ => None
      | None =>
          match attr h x "FileNameWithIOInfo" "name", attr h x "FileNameWithIOInfo" "access" with
          | Some (HStr s), Some r =>
              match view_access h r with Some a => Some (PRes (mkRes (FileName s) a)) | None => None end
          | _, _ =>
              match attr h x "StdDescriptorWithIOInfo" "name", attr h x "StdDescriptorWithIOInfo" "access" with
              | Some (HStd s), Some r =>
                  match view_access h r with Some a => Some (PRes (mkRes (StdDescriptor s) a)) | None => None end
              | _, _ => None
              end
          end
      end
  | _ => None
  end.
Definition view_flag (h : heap) (x : hval) : option flag_el :=
  match attr h x "Flag" "flag_name" with
  | Some (HStr n) => Some (FFlag n)
  | Some _ => None
  | None =>
      match attr h x "OptionWithIOVar" "option_name", attr h x "OptionWithIOVar" "option_arg" with
      | Some (HStr n), Some y => match view_val h y with Some p => Some (FOptVar n p) | None => None end
      | _, _ =>
          match attr h x "OptionWithIO" "option_name", attr h x "OptionWithIO" "option_arg" with
          | Some (HStr n), Some y => match view_val h y with Some p => Some (FOptIO n p) | None => None end
          | _, _ => None
          end
      end
  end.

(** [x == y] or [x is y], for elements of a list of flags.  Simplification: attributes are
    compared by what they stand for. *)
Definition same_flag (h : heap) (x y : hval) : bool :=
  match x, y with
  | HRef a, HRef b =>
      Nat.eqb a b ||
      match view_flag h x, view_flag h y with Some f, Some g => fe_eqb f g | _, _ => false end
  | _, _ => false
  end.
(** [x.get_name()] *)
Definition flag_name_h (x : hval) : hm string :=
  fun h => (h, match view_flag h x with Some f => Ok (fe_name f) | None => Raise TypeError end).
(** [[x for x in l if p(x.get_name())]] *)
Fixpoint filter_names (p : string -> bool) (l : list hval) : hm (list hval) :=
  match l with
  | [] => hret []
  | x :: l' =>
      run! n := flag_name_h x in
      run! r := filter_names p l' in
      hret (if p n then x :: r else r)
  end.
(** TransformerFlagOptionList.py:61-64, 71-77, 84-88, 95-99, 106-109, 116-119, 148-151: the
    sequential and the custom transformer return the very list they are given or hold. *)
Fixpoint transform_h (t : htransformer) (original : hval) : hm hval :=
  match t with
  | HTSeq => hret original
  | HTAdd x =>
      run! l := items x in
      run! l0 := items original in
      fun h => alloc (OList (l0 ++ filter (fun y => negb (existsb (fun z => same_flag h z y) l0)) l)) h
  | HTRemove names =>
      run! l0 := items original in
      run! r := filter_names (fun n => negb (mem n names)) l0 in alloc (OList r)
  | HTFilter names =>
      run! l0 := items original in
      run! r := filter_names (fun n => mem n names) l0 in alloc (OList r)
  | HTEmpty => alloc (OList [])
  | HTCustom x => hret x
  | HTChain ts =>
      (fix go (ts : list htransformer) (cur : hval) : hm hval :=
         match ts with [] => hret cur | t :: ts' => run! next := transform_h t cur in go ts' next end)
        ts original
  end.

(** ** MapperSpec.py *)
Record hmapper_spec : Type := mkHMapperSpec
  { hms_kind : mapper_kind; hms_cmd_name : option string; hms_transformer : htransformer;
    hms_is_implemented : bool }.

(** MapperSpec.py:66-79, Mapper.py:36-43 *)
Definition base_mapper_h (s : hmapper_spec) (orig : hval) : hm hval :=
  run! cmd := get_cmd_name orig in
  run! fl := get_attr orig "flag_option_list" in
  run! fl := match hms_kind s with
             | SAME_AS_SEQ => hret fl
             | CUSTOM => transform_h (hms_transformer s) fl
             end in
  run! ol := get_attr orig "operand_list" in
  run! i := get_attr orig "implicit_use_of_streaming_input" in
  run! o := get_attr orig "implicit_use_of_streaming_output" in
  run! am := get_attr orig "access_map" in
  let cmd := match hms_kind s, hms_cmd_name s with CUSTOM, Some n => n | _, _ => cmd end in
  new_invocation "Mapper" None cmd fl ol i o am.

(** MapperSpec.py:57-98; [aux_output_tos] is the list passed by the caller. *)
Definition get_mapper_h (s : hmapper_spec) (orig : hval) (input_from output_to : Z) (aux_output_tos : hval)
  : hm (option hval) :=
  if negb (hms_is_implemented s) then hret None
  else
    run! mapper := base_mapper_h s orig in
    run! aux := items aux_output_tos in
    match aux with
    | [] =>
        run! l1 := alloc (OList [HInt input_from]) in
        run! l2 := alloc (OList [HInt output_to]) in
        run! _ := substitute_inputs_and_outputs_h mapper l1 l2 in
        hret (Some mapper)
    | _ =>
        run! ol := get_attr mapper "operand_list" in
        run! ops := items ol in
        run! _ := hiter (fun x => match x with
                                  | HInt v => run! d := get_attr mapper "access_map" in
                                              run! _ := dict_pop d v in hret tt
                                  | _ => hthrow AssertionError
                                  end) ops in
        run! l := alloc (OList (HInt input_from :: HInt output_to :: aux)) in
        run! _ := set_attr mapper "operand_list" l in
        run! d := get_attr mapper "access_map" in
        run! _ := add_accesses d STREAM_INPUT [HInt input_from] in
        run! _ := add_accesses d STREAM_OUTPUT [HInt output_to] in
        run! _ := add_accesses d STREAM_OUTPUT aux in
        run! _ := set_attr mapper "implicit_use_of_streaming_output" HNone in
        run! _ := set_attr mapper "implicit_use_of_streaming_input" HNone in
        hret (Some mapper)
    end.

(** ** AggregatorSpec.py *)
Inductive hagg_spec : Type :=
| HAggNonFunc (kind : agg_kind) (is_implemented : bool)
| HAggTransformer (kind : agg_kind) (t : htransformer) (is_implemented : bool)
| HAggString (kind : agg_kind) (cmd_inv_as_str : string) (is_implemented : bool).

(** Aggregator.py:37-40 *)
Definition make_aggregator_from (cmd_inv : hval) (k : agg_kind) : hm hval :=
  run! cmd := get_cmd_name cmd_inv in
  run! fl := get_attr cmd_inv "flag_option_list" in
  run! ol := get_attr cmd_inv "operand_list" in
  run! i := get_attr cmd_inv "implicit_use_of_streaming_input" in
  run! o := get_attr cmd_inv "implicit_use_of_streaming_output" in
  run! am := get_attr cmd_inv "access_map" in
  new_invocation "Aggregator" (Some k) cmd fl ol i o am.

(** [assert(len(inputs_from) == n)] *)
Definition arity_check_h (k : agg_kind) (n : nat) : hm unit :=
  match k with
  | ADJ_LINES_FUNC => hlift (assert_ (Nat.eqb n 1))
  | CUSTOM_2_ARY => hlift (assert_ (Nat.eqb n 2))
  | _ => hret tt
  end.

(** AggregatorSpec.py:169-190 *)
Definition get_aggregator_nonfunc_h (k : agg_kind) (inputs_from : hval) (output_to : Z) : hm (option hval) :=
  match k with
  | CONCATENATE =>
      run! c := make_cat_h inputs_from output_to in
      run! a := make_aggregator_from c k in
      hret (Some a)
  | ADJ_LINES_MERGE | ADJ_LINES_SEQ =>
      run! l := items inputs_from in
      run! _ := hlift (assert_ (Nat.eqb (length l) 1)) in hthrow AssertionError
  | _ => hret None
  end.

(** AggregatorSpec.py:215-238.  The copy [agg] shares the transformed flags with the original
    or with the transformer, and its operands are the list of the caller. *)
Definition get_aggregator_transformer_h (k : agg_kind) (t : htransformer) (orig inputs_from : hval)
    (output_to : Z) : hm (option hval) :=
  run! l := items inputs_from in
  run! _ := arity_check_h k (length l) in
  run! agg := deepcopy orig in
  run! fl := get_attr orig "flag_option_list" in
  run! fl := transform_h t fl in
  run! _ := set_attr agg "flag_option_list" fl in
  run! _ := remove_streaming_h is_stream_input agg in
  run! _ := set_attr agg "operand_list" inputs_from in
  run! _ := hiter (fun x =>
    run! v := as_int x in
    run! d := get_attr agg "access_map" in
    run! b := dict_has d v in
    if b then hthrow AssertionError
    else run! r := new_access STREAM_INPUT in dict_set d v r) l in
  run! o := get_attr agg "implicit_use_of_streaming_output" in
  run! _ := replace_var_h agg o output_to in
  run! a := make_aggregator_from agg k in
  hret (Some a).

(** The flags of a parsed invocation: new objects in a new list, AggregatorSpec.py:273-276,
    310-313 *)
Definition new_flags (l : list flag_option) : hm hval :=
  run! fs := hmap (fun fo => match fo with
                             | Flag n => alloc (OInst "Flag" [("flag_name", HStr n)])
                             | Option_ _ _ => hthrow AssertionError
                             end) l in
  alloc (OList fs).

(** AggregatorSpec.py:261-294 *)
Definition get_aggregator_string_h (dir : data_dir) (k : agg_kind) (s : string) (inputs_from : hval)
    (output_to : Z) : hm (option hval) :=
  run! cmd_inv := hlift (parse dir s) in
  run! fl := new_flags (flag_option_list cmd_inv) in
  run! l := items inputs_from in
  run! d := alloc (ODict []) in
  run! _ := add_accesses d STREAM_INPUT l in
  run! _ := add_accesses d STREAM_OUTPUT [HInt output_to] in
  run! a := new_invocation "Aggregator" (Some k) (cmd_name cmd_inv) fl inputs_from HNone
              (HInt output_to) d in
  match k with
  | ADJ_LINES_FUNC =>
      run! _ := hlift (assert_ (Nat.eqb (length l) 1)) in hthrow GenericException
  | CUSTOM_2_ARY => run! _ := hlift (assert_ (Nat.eqb (length l) 2)) in hret (Some a)
  | _ => hret (Some a)
  end.

(** AggregatorSpec.get_aggregator *)
Definition get_aggregator_h (dir : data_dir) (a : hagg_spec) (orig inputs_from : hval) (output_to : Z)
  : hm (option hval) :=
  match a with
  | HAggNonFunc k b => if b then get_aggregator_nonfunc_h k inputs_from output_to else hret None
  | HAggTransformer k t b => if b then get_aggregator_transformer_h k t orig inputs_from output_to else hret None
  | HAggString k s b => if b then get_aggregator_string_h dir k s inputs_from output_to else hret None
  end.

(** AggregatorSpec.py:296-332; the two lists of auxiliary inputs and the list of auxiliary
    outputs belong to the caller. *)
Definition get_2_ary_with_aux_h (dir : data_dir) (a : hagg_spec) (fst_normal_input : Z) (fst_aux : hval)
    (snd_normal_input : Z) (snd_aux : hval) (output_to : Z) (aux_outputs_to : hval) : hm hval :=
  match a with
  | HAggNonFunc _ _ | HAggTransformer _ _ _ => hthrow GenericException
  | HAggString k s _ =>
      run! l1 := items fst_aux in
      run! l2 := items snd_aux in
      run! _ := hlift (assert_ (Nat.eqb (length l1) (length l2))) in
      run! l3 := items aux_outputs_to in
      run! _ := hlift (assert_ (Nat.eqb (length l1) (length l3))) in
      run! cmd_inv := hlift (parse dir s) in
      run! fl := new_flags (flag_option_list cmd_inv) in
      let all_inputs := [HInt fst_normal_input] ++ l1 ++ [HInt snd_normal_input] ++ l2 in
      let all_outputs := [HInt output_to] ++ l3 in
      run! d := alloc (ODict []) in
      run! _ := add_accesses d STREAM_INPUT all_inputs in
      run! _ := add_accesses d STREAM_OUTPUT all_outputs in
      run! ol := alloc (OList (all_inputs ++ all_outputs)) in
      new_invocation "Aggregator" (Some k) (cmd_name cmd_inv) fl ol HNone HNone d
  end.
