(** * Reading of the theorems about objects and references *)
Require Import Verif.PyBase Verif.JsonData Verif.Access Verif.IOInfo Verif.IOVars Verif.Transformers
  Verif.ParaTypes Verif.MapperAgg Verif.Heap.

(** A reference to an existing object, or no reference *)
Definition valid (h : heap) (v : hval) : Prop :=
  match v with HRef l => l < length h | _ => True end.
(** No dangling references: true of every heap of a Python process. *)
Definition closed (h : heap) : Prop := forall o, In o h -> Forall (valid h) (slots o).
(** Every object of the first heap is the same in the second. *)
Definition unchanged (h h' : heap) : Prop := forall l, l < length h -> nth_error h' l = nth_error h l.

(** The object at [l] can be reached from the value. *)
Inductive reaches (h : heap) : hval -> loc -> Prop :=
| reaches_here : forall l, l < length h -> reaches h (HRef l) l
| reaches_slot : forall l o v l', nth_error h l = Some o -> In v (slots o) -> reaches h v l' -> reaches h (HRef l) l'.

(** ** A client
    Any program that starts with the values in [held] and otherwise only has values that are
    not references.  It may look into objects it holds, create objects and overwrite objects
    it holds. *)
Definition available (held : list hval) (v : hval) : Prop :=
  match v with HRef _ => In v held | _ => True end.
Inductive client : heap -> list hval -> heap -> list hval -> Prop :=
| client_stop : forall h held, client h held h held
| client_read : forall h held l o v h' held',
    In (HRef l) held -> nth_error h l = Some o -> In v (slots o) ->
    client h (v :: held) h' held' -> client h held h' held'
| client_new : forall h held o h' held',
    Forall (available held) (slots o) ->
    client (h ++ [o]) (HRef (length h) :: held) h' held' -> client h held h' held'
| client_write : forall h held l o h' held',
    In (HRef l) held -> Forall (available held) (slots o) ->
    client (update h l o) held h' held' -> client h held h' held'.

(** ** What an invocation object stands for *)
Definition views {A} (view : heap -> hval -> option A) (h : heap) (x : hval) (l : list A) : Prop :=
  exists a vs, x = HRef a /\ nth_error h a = Some (OList vs) /\ Forall2 (fun v p => view h v = Some p) vs l.
Definition views_dict (h : heap) (x : hval) (m : amap) : Prop :=
  exists a es, x = HRef a /\ nth_error h a = Some (ODict es) /\
    forall k, match assoc_z es k with
              | Some v => exists acc, view_access h v = Some acc /\ m k = Some acc
              | None => m k = None
              end.
Definition invocation_class (cls : string) : Prop :=
  In cls ["CommandInvocationWithIOVars"; "Mapper"; "Aggregator"].
Definition views_invocation (h : heap) (x : hval) (c : civ) : Prop :=
  exists a cls attrs fl ol i o am,
    x = HRef a /\ nth_error h a = Some (OInst cls attrs) /\ invocation_class cls /\
    assoc_s attrs "cmd_name" = Some (HStr (v_cmd c)) /\
    assoc_s attrs "flag_option_list" = Some fl /\ views view_flag h fl (v_flags c) /\
    assoc_s attrs "operand_list" = Some ol /\ views view_val h ol (v_ops c) /\
    assoc_s attrs "implicit_use_of_streaming_input" = Some i /\ view_val h i = Some (v_in c) /\
    assoc_s attrs "implicit_use_of_streaming_output" = Some o /\ view_val h o = Some (v_out c) /\
    assoc_s attrs "access_map" = Some am /\ views_dict h am (v_acc c).
(** A list of variables *)
Definition variables (h : heap) (x : hval) (l : list Z) : Prop :=
  exists a, x = HRef a /\ nth_error h a = Some (OList (map HInt l)).
Inductive views_transformer (h : heap) : htransformer -> transformer -> Prop :=
| vt_seq : views_transformer h HTSeq TSeq
| vt_add : forall x l, views view_flag h x l -> views_transformer h (HTAdd x) (TAdd l)
| vt_remove : forall l, views_transformer h (HTRemove l) (TRemove l)
| vt_filter : forall l, views_transformer h (HTFilter l) (TFilter l)
| vt_empty : views_transformer h HTEmpty TEmpty
| vt_custom : forall x l, views view_flag h x l -> views_transformer h (HTCustom x) (TCustom l)
| vt_chain : forall ts us, Forall2 (views_transformer h) ts us -> views_transformer h (HTChain ts) (TChain us).
(** The objects that a transformer refers to exist. *)
Inductive valid_transformer (h : heap) : htransformer -> Prop :=
| vd_seq : valid_transformer h HTSeq
| vd_add : forall x, valid h x -> valid_transformer h (HTAdd x)
| vd_remove : forall l, valid_transformer h (HTRemove l)
| vd_filter : forall l, valid_transformer h (HTFilter l)
| vd_empty : valid_transformer h HTEmpty
| vd_custom : forall x, valid h x -> valid_transformer h (HTCustom x)
| vd_chain : forall ts, Forall (valid_transformer h) ts -> valid_transformer h (HTChain ts).
(** No transformer adds an [OptionWithIOVar] (those compare by identity, see Transformers.v). *)
Inductive plain_transformer : transformer -> Prop :=
| pt_seq : plain_transformer TSeq
| pt_add : forall l, (forall n a, ~ In (FOptVar n a) l) -> plain_transformer (TAdd l)
| pt_remove : forall l, plain_transformer (TRemove l)
| pt_filter : forall l, plain_transformer (TFilter l)
| pt_empty : plain_transformer TEmpty
| pt_custom : forall l, plain_transformer (TCustom l)
| pt_chain : forall ts, Forall plain_transformer ts -> plain_transformer (TChain ts).
Definition views_mapper_spec (h : heap) (s : hmapper_spec) (s' : mapper_spec) : Prop :=
  hms_kind s = ms_kind s' /\ hms_cmd_name s = ms_cmd_name s' /\
  views_transformer h (hms_transformer s) (ms_transformer s') /\ plain_transformer (ms_transformer s') /\
  hms_is_implemented s = ms_is_implemented s'.
Definition views_agg_spec (h : heap) (a : hagg_spec) (a' : agg_spec) : Prop :=
  match a, a' with
  | HAggNonFunc k b, AggNonFunc k' b' => k = k' /\ b = b'
  | HAggTransformer k t b, AggTransformer k' t' b' =>
      k = k' /\ views_transformer h t t' /\ plain_transformer t' /\ b = b'
  | HAggString k s b, AggString k' s' b' => k = k' /\ s = s' /\ b = b'
  | _, _ => False
  end.
Definition views_aggregator (h : heap) (x : hval) (a : aggregator) : Prop :=
  attr h x "Aggregator" "kind" = Some (HKind (fst a)) /\ views_invocation h x (snd a).
(** The outcome on the heap is the outcome of the model of values. *)
Definition same_outcome {A} (view : heap -> hval -> A -> Prop)
    (r : heap * result (option hval)) (r' : result (option A)) : Prop :=
  match r, r' with
  | (_, Ok None), Ok None => True
  | (h, Ok (Some x)), Ok (Some a) => view h x a
  | (_, Raise e), Raise e' => e = e'
  | _, _ => False
  end.

(** ** Planning
    A sequence of requests for the same original invocation; each may fail or return [None].
    A request comes with what its arguments stand for. *)
Inductive request : Type :=
| RMapper (s : hmapper_spec) (s' : mapper_spec) (input_from output_to : Z) (aux : hval) (aux' : list Z)
| RAggregator (a : hagg_spec) (a' : agg_spec) (inputs_from : hval) (inputs' : list Z) (output_to : Z).
Definition request_ok (h : heap) (q : request) : Prop :=
  match q with
  | RMapper s s' _ _ aux aux' => views_mapper_spec h s s' /\ variables h aux aux'
  | RAggregator a a' ins ins' _ => views_agg_spec h a a' /\ variables h ins ins'
  end.
Definition do_request (dir : data_dir) (orig : hval) (q : request) : hm (option hval) :=
  match q with
  | RMapper s _ i o aux _ => get_mapper_h s orig i o aux
  | RAggregator a _ ins _ o => get_aggregator_h dir a orig ins o
  end.
(** The answer according to the model of values *)
Definition answer (dir : data_dir) (c : civ) (q : request) : result (option civ) :=
  match q with
  | RMapper _ s' i o _ aux' => get_mapper s' c i o aux'
  | RAggregator _ a' _ ins' o => let! r := get_aggregator dir a' c ins' o in
                                 Ok (match r with Some (_, c') => Some c' | None => None end)
  end.
Definition planning (dir : data_dir) (orig : hval) :=
  fix go (qs : list request) (h : heap) : heap * list (result (option hval)) :=
  match qs with
  | [] => (h, [])
  | q :: qs' => let (h1, r) := do_request dir orig q h in let (h2, rs) := go qs' h1 in (h2, r :: rs)
  end.
