(** * Model of MapperSpec.get_mapper, AggregatorSpec.get_aggregator and
    get_actual_2_ary_aggregator_with_aux (datatypes/parallelizability/) and of the methods of
    Parallelizer that call them *)
Require Import Verif.PyBase Verif.JsonData Verif.Parser Verif.Access Verif.IOInfo Verif.IOVars
  Verif.Transformers Verif.ParaTypes.

(** The outcome of a method that is run for its effect on a new object *)
Definition finished {A} (r : civ * result A) : result civ :=
  match r with (c, Ok _) => Ok c | (_, Raise e) => Raise e end.

(** MapperSpec.py:84-86: forget the accesses of the operands *)
Fixpoint pop_operands (ops : list pyval) (m : amap) : result amap :=
  match ops with
  | [] => Ok m
  | PVar v :: ops' =>
      match m v with
      | Some _ => pop_operands ops' (am_del m v)
      | None => Raise KeyError
      end
  | _ :: _ => Raise AssertionError
  end.

(** MapperSpec.py:66-79, Mapper.py:36-43: the mapper before its inputs and outputs are set *)
Definition base_mapper (s : mapper_spec) (orig : civ) : civ :=
  match ms_kind s with
  | SAME_AS_SEQ => orig
  | CUSTOM =>
      mkCiv (match ms_cmd_name s with None => v_cmd orig | Some n => n end)
            (transform (ms_transformer s) (v_flags orig))
            (v_ops orig) (v_in orig) (v_out orig) (v_acc orig)
  end.

(** MapperSpec.py:57-98 *)
Definition get_mapper (s : mapper_spec) (orig : civ) (input_from output_to : Z) (aux_output_tos : list Z)
  : result (option civ) :=
  if negb (ms_is_implemented s) then Ok None
  else
    let mapper := base_mapper s orig in
    match aux_output_tos with
    | [] =>
        let! c := finished (substitute_inputs_and_outputs mapper [input_from] [output_to]) in
        Ok (Some c)
    | _ =>
        let! m := pop_operands (v_ops mapper) (v_acc mapper) in
        let m := am_set m input_from STREAM_INPUT in
        let m := am_set m output_to STREAM_OUTPUT in
        let m := am_of aux_output_tos STREAM_OUTPUT m in
        Ok (Some (mkCiv (v_cmd mapper) (v_flags mapper) (map PVar (input_from :: output_to :: aux_output_tos))
                        PNone PNone m))
    end.

(** Parallelizer.py:67-74 *)
Definition get_actual_mapper (p : parallelizer) (orig : civ) (input_from output_to : Z) (aux_output_tos : list Z)
  : result (option civ) :=
  let! _ := assert_ (Nat.eqb (length aux_output_tos) (p_info_mapper_aggregator p)) in
  get_mapper (p_mapper p) orig input_from output_to aux_output_tos.

(** An [Aggregator] (Aggregator.py:13-26): its kind and the invocation *)
Definition aggregator : Type := agg_kind * civ.

(** AggregatorSpec.py:224-227: the arity checks *)
Definition arity_check (k : agg_kind) (inputs_from : list Z) : result unit :=
  match k with
  | ADJ_LINES_FUNC => assert_ (Nat.eqb (length inputs_from) 1)
  | CUSTOM_2_ARY => assert_ (Nat.eqb (length inputs_from) 2)
  | _ => Ok tt
  end.

(** AggregatorSpec.py:169-190 *)
Definition get_aggregator_nonfunc (k : agg_kind) (inputs_from : list Z) (output_to : Z)
  : result (option aggregator) :=
  match k with
  | CONCATENATE => Ok (Some (k, make_cat inputs_from output_to))
  | ADJ_LINES_MERGE | ADJ_LINES_SEQ =>
      let! _ := assert_ (Nat.eqb (length inputs_from) 1) in Raise AssertionError
  | _ => Ok None
  end.

(** AggregatorSpec.py:234-236: register the inputs *)
Fixpoint register_inputs (ids : list Z) (m : amap) : result amap :=
  match ids with
  | [] => Ok m
  | v :: ids' =>
      match m v with
      | Some _ => Raise AssertionError
      | None => register_inputs ids' (am_set m v STREAM_INPUT)
      end
  end.

(** AggregatorSpec.py:215-238 *)
Definition get_aggregator_transformer (k : agg_kind) (t : transformer) (orig : civ) (inputs_from : list Z)
    (output_to : Z) : result (option aggregator) :=
  let! _ := arity_check k inputs_from in
  let c := with_flags (transform t (v_flags orig)) orig in
  let! c := finished (remove_streaming_inputs c) in
  let c := with_ops (map PVar inputs_from) c in
  let! m := register_inputs inputs_from (v_acc c) in
  let c := with_acc m c in
  let! c := finished (replace_var c (v_out c) output_to) in
  Ok (Some (k, c)).

(** AggregatorSpec.py:261-294 *)
Definition get_aggregator_string (dir : data_dir) (k : agg_kind) (s : string) (inputs_from : list Z)
    (output_to : Z) : result (option aggregator) :=
  let! cmd_inv := parse dir s in
  let! l := only_flags (flag_option_list cmd_inv) in
  let m := am_set (am_of inputs_from STREAM_INPUT am_empty) output_to STREAM_OUTPUT in
  let agg := (k, mkCiv (cmd_name cmd_inv) l (map PVar inputs_from) PNone (PVar output_to) m) in
  match k with
  | ADJ_LINES_FUNC => let! _ := assert_ (Nat.eqb (length inputs_from) 1) in Raise GenericException
  | CUSTOM_2_ARY => let! _ := assert_ (Nat.eqb (length inputs_from) 2) in Ok (Some agg)
  | _ => Ok (Some agg)
  end.

(** AggregatorSpec.get_aggregator, Parallelizer.py:79-85 *)
Definition get_aggregator (dir : data_dir) (a : agg_spec) (orig : civ) (inputs_from : list Z) (output_to : Z)
  : result (option aggregator) :=
  if negb (agg_is_implemented a) then Ok None
  else
    match a with
    | AggNonFunc k _ => get_aggregator_nonfunc k inputs_from output_to
    | AggTransformer k t _ => get_aggregator_transformer k t orig inputs_from output_to
    | AggString k s _ => get_aggregator_string dir k s inputs_from output_to
    end.

(** AggregatorSpec.py:192-200, 240-248, 296-332, Parallelizer.py:87-97 *)
Definition get_actual_2_ary_aggregator_with_aux (dir : data_dir) (a : agg_spec)
    (fst_normal_input : Z) (fst_aux : list Z) (snd_normal_input : Z) (snd_aux : list Z)
    (output_to : Z) (aux_outputs_to : list Z) : result aggregator :=
  match a with
  | AggNonFunc _ _ | AggTransformer _ _ _ => Raise GenericException
  | AggString k s _ =>
      let! _ := assert_ (Nat.eqb (length fst_aux) (length snd_aux)) in
      let! _ := assert_ (Nat.eqb (length fst_aux) (length aux_outputs_to)) in
      let! cmd_inv := parse dir s in
      let! l := only_flags (flag_option_list cmd_inv) in
      let all_inputs := [fst_normal_input] ++ fst_aux ++ [snd_normal_input] ++ snd_aux in
      let all_outputs := [output_to] ++ aux_outputs_to in
      let m := am_of all_outputs STREAM_OUTPUT (am_of all_inputs STREAM_INPUT am_empty) in
      Ok (k, mkCiv (cmd_name cmd_inv) l (map PVar (all_inputs ++ all_outputs)) PNone PNone m)
  end.
