(** * Specification of mappers and aggregators *)
Require Import Verif.PyBase Verif.JsonData Verif.Parser Verif.Access Verif.IOInfo Verif.IOVars
  Verif.Transformers Verif.ParaTypes Verif.MapperAgg Verif.SpecPara Verif.SpecVars.

(** [mapper_base s orig base]: [base] is the command to run, still with the inputs and
    outputs of the original. *)
Inductive mapper_base (s : mapper_spec) (orig : civ) : civ -> Prop :=
| mb_seq : ms_kind s = SAME_AS_SEQ -> mapper_base s orig orig
| mb_custom base : ms_kind s = CUSTOM ->
    (forall n, ms_cmd_name s = Some n -> v_cmd base = n) -> (ms_cmd_name s = None -> v_cmd base = v_cmd orig) ->
    v_flags base = transform (ms_transformer s) (v_flags orig) ->
    v_ops base = v_ops orig -> v_in base = v_in orig -> v_out base = v_out orig -> v_acc base = v_acc orig ->
    mapper_base s orig base.

(** [v] with [i] renamed to [i'] and [o] to [o'] *)
Definition renamed (i i' o o' v : Z) : Z := if Z.eqb v i then i' else if Z.eqb v o then o' else v.

(** The access of a variable, as a relation *)
Definition access_is (c : civ) (v : Z) (a : option access) : Prop := v_acc c v = a.

(** [takes k n]: how many inputs an aggregator of kind [k] may be given *)
Definition takes (k : agg_kind) (n : nat) : Prop :=
  (k = ADJ_LINES_FUNC -> n = 1) /\ (k = CUSTOM_2_ARY -> n = 2).

(** The types of the constructors' arguments (AggregatorSpec.py:165, 206, 254), which are not
    checked when the program runs *)
Definition well_kinded (a : agg_spec) : Prop :=
  match a with
  | AggNonFunc k _ => k = CONCATENATE \/ k = ADJ_LINES_MERGE \/ k = ADJ_LINES_SEQ
  | AggTransformer k _ _ | AggString k _ _ => k = ADJ_LINES_FUNC \/ k = CUSTOM_2_ARY \/ k = CUSTOM_N_ARY
  end.

(** [v] is a streaming input of [c]. *)
Definition streaming_input (c : civ) (v : Z) : Prop := In v (vars c) /\ v_acc c v = Some STREAM_INPUT.

(** The flags of a parsed command without options *)
Definition flags_only (l : list flag_option) (l' : list flag_el) : Prop :=
  Forall2 (fun x y => exists n, x = Flag n /\ y = FFlag n) l l'.
