(** * Specification of readable texts *)
Require Import Verif.PyBase Verif.Parser Verif.IOInfo Verif.IOVars Verif.Transformers Verif.ParaTypes Verif.SpecShlex.

(** The word can be printed on one line. *)
Definition one_line (s : string) : Prop := all_chars (fun c => c <> "010"%char) s.
(** The word can be told from its neighbours in a list. *)
Definition separate (s : string) : Prop := s <> "" /\ all_chars (fun c => c <> ","%char) s.

Definition fo_one_line (fo : flag_option) : Prop :=
  match fo with Flag n => one_line n | Option_ n a => one_line n /\ one_line a end.
Definition arg_one_line (a : io_arg) : Prop :=
  match a with
  | ArgString s => one_line s
  | Res r => match res_el r with FileName n => one_line n | StdDescriptor _ => True end
  end.
Definition fo_io_one_line (fo : flag_option_io) : Prop :=
  match fo with FlagIO n => one_line n | OptionIO n a => one_line n /\ arg_one_line a end.
Definition implicit_one_line (r : option resource) : Prop :=
  match r with None => True | Some r => arg_one_line (Res r) end.
(** All words of an invocation are on one line. *)
Definition inv_one_line (i : invocation) : Prop :=
  one_line (cmd_name i) /\ Forall fo_one_line (flag_option_list i).
Definition inv_io_one_line (c : invocation_io) : Prop :=
  one_line (io_cmd_name c) /\ Forall fo_io_one_line (io_flag_option_list c) /\ Forall arg_one_line (io_operand_list c) /\
  implicit_one_line (io_implicit_input c) /\ implicit_one_line (io_implicit_output c).

(** Transformers that hold flags only. *)
Fixpoint holds_flags (t : transformer) : Prop :=
  match t with
  | TAdd l | TCustom l => Forall (fun x => exists n, x = FFlag n /\ one_line n) l
  | TChain ts => fold_right and True (map holds_flags ts)
  | _ => True
  end.
Definition mapper_one_line (m : mapper_spec) : Prop :=
  holds_flags (ms_transformer m) /\
  match ms_cmd_name m with None => True | Some n => one_line n /\ n <> "None" end.
Definition agg_one_line (a : agg_spec) : Prop :=
  match a with AggNonFunc _ _ => True | AggTransformer _ t _ => holds_flags t | AggString _ s _ => one_line s end.
Definition para_one_line (i : para_info) : Prop :=
  Forall (fun p => mapper_one_line (p_mapper p) /\ agg_one_line (p_aggregator p)) (parallelizer_list i).

(** Parallelizers that agree on splitter, mapper and aggregator. *)
Definition same_parts (p q : parallelizer) : Prop :=
  p_splitter p = p_splitter q /\ p_mapper p = p_mapper q /\ p_aggregator p = p_aggregator q.

(** The pieces occur in the text one after the other, and the last one ends it. *)
Inductive in_order : list string -> string -> Prop :=
| in_last a x : in_order [x] (a +++ x)
| in_next a x y l t : in_order (y :: l) t -> in_order (x :: y :: l) (a +++ x +++ t).
