(** * Where the words of the report come from *)
Require Import Verif.PyBase Verif.JsonData Verif.Shlex Verif.Parser Verif.Access Verif.IOInfo Verif.IOGen Verif.IOVars Verif.Transformers
  Verif.ParaTypes Verif.ParaGen Verif.ShippedData Verif.SpecShlex Verif.SpecParser Verif.SpecIO Verif.SpecPara Verif.ShlexFacts
  Verif.ParserFacts Verif.ParserProps Verif.ShippedFacts Verif.IOFacts Verif.IOProps Verif.IOGeneral Verif.ParaFacts Verif.ParaProps
  Verif.Text Verif.SpecText Verif.TextFacts Verif.ReportFacts.

(** ** Words of a command line *)
Section Words.
Variable P : ascii -> Prop.
Hypothesis Pb : P backslash.
Lemma append_char_P tok c : all_chars P tok -> P c -> all_chars P (append_char tok c).
Proof. intros. unfold append_char. apply all_chars_app. cbn. auto. Qed.
Lemma lex_words s : forall st tok q ws, lex st tok q s = Ok ws -> all_chars P s -> all_chars P tok -> Forall (all_chars P) ws.
Proof.
  induction s as [|c s IH]; intros st tok q ws H S T.
  - destruct st; cbn [lex] in H; try discriminate; [injection H as <-; constructor|].
    destruct (_ || _); injection H as <-; repeat constructor. exact T.
  - destruct S as [C S]. assert (N : all_chars P "") by exact Logic.I.
    destruct st as [| |d|[d|]]; cbn [lex] in H.
    + destruct (is_space c); [eapply IH; eauto|]. destruct (Ascii.eqb c backslash); [eapply IH; eauto|].
      destruct (is_quote c); [eapply IH; eauto|]. eapply IH; eauto. cbn. auto.
    + destruct (is_space c).
      * destruct (_ || _); [|eapply IH; eauto]. destruct (lex LSpace "" false s) as [rest|] eqn:E; [|discriminate].
        cbn in H. injection H as <-. constructor; [exact T|]. eapply IH; eauto.
      * destruct (is_quote c); [eapply IH; eauto|]. destruct (Ascii.eqb c backslash); [eapply IH; eauto|].
        eapply IH; eauto. now apply append_char_P.
    + destruct (Ascii.eqb c d); [eapply IH; eauto|]. destruct (_ && _); [eapply IH; eauto|]. eapply IH; eauto. now apply append_char_P.
    + eapply IH; eauto. apply append_char_P; auto. destruct (_ && _); auto. now apply append_char_P.
    + eapply IH; eauto. now apply append_char_P.
Qed.
End Words.
Lemma split_one_line s ws : shlex_split s = Ok ws -> one_line s -> Forall one_line ws.
Proof. intros H S. eapply lex_words; eauto; [discriminate|exact Logic.I]. Qed.

(** ** Names of flags and options *)
Definition data_one_line (j : json_data) : Prop :=
  Forall one_line (get_set_of_all_flags j) /\ Forall one_line (get_set_of_all_options j).
Lemma synonyms_values (Q : string -> Prop) groups : forall d,
  (forall l, In l groups -> Forall Q l) -> (forall k v, dict_find d k = Some v -> Q v) ->
  forall k v, dict_find (fold_left add_synonyms groups d) k = Some v -> Q v.
Proof.
  induction groups as [|l groups IH]; intros d G D k v H; cbn [fold_left] in H; [eauto|].
  apply (IH (add_synonyms d l)) with (k := k); auto; [intros; apply G; now right|].
  clear IH H k v. specialize (G l (or_introl eq_refl)). destruct l as [|p l]; cbn [add_synonyms]; [exact D|].
  inversion G as [|? ? Qp Ql]; subst. clear G Ql. revert d D. induction l as [|w l IH]; intros d D k v H; cbn [fold_left] in H; [eauto|].
  eapply IH; [|exact H]. intros k' v'. unfold dict_set. cbn. destruct (String.eqb k' w); [intros [= <-]; exact Qp|eauto].
Qed.
Lemma chars_one_line w : one_line w -> Forall one_line (chars w).
Proof.
  unfold one_line. induction w as [|c w IH]; cbn; intros H; constructor; [cbn; tauto|tauto].
Qed.
Lemma parse_words_one_line j : data_one_line j -> forall ws fos ops, parse_words j ws = (fos, ops) ->
  Forall one_line ws -> Forall fo_one_line fos /\ Forall one_line ops.
Proof.
  intros [F O]. unfold parse_words.
  assert (DF : forall k v, dict_find (get_dict_flag_to_primary_repr j) k = Some v -> one_line v).
  { unfold get_dict_flag_to_primary_repr. rewrite fold_add_map. apply synonyms_values; [|discriminate].
    intros l I. apply in_map_iff in I as (e & <- & I). unfold get_set_of_all_flags in F. rewrite Forall_forall in *.
    intros w W. apply F, in_flat_map. eauto. }
  assert (DO : forall k v, dict_find (get_dict_option_to_primary_repr j) k = Some v -> one_line v).
  { unfold get_dict_option_to_primary_repr. rewrite fold_add_map. apply synonyms_values; [|discriminate].
    intros l I. apply in_map_iff in I as (e & <- & I). unfold get_set_of_all_options in O. rewrite Forall_forall in *.
    intros w W. apply O, in_flat_map. eauto. }
  assert (V : forall d w, (forall k v, dict_find d k = Some v -> one_line v) -> one_line w -> one_line (dict_get_default d w w)).
  { intros d w D W. unfold dict_get_default. destruct (dict_find d w) eqn:E; eauto. }
  intros ws. remember (length ws) as n eqn:N. assert (L : length ws <= n) by (subst; auto). clear N. revert ws L.
  induction n as [|n IH]; intros [|w ws] L fos ops H W; cbn in L; cbn [parse_loop] in H.
  1,3: injection H as <- <-; auto.
  - exfalso. inversion L.
  - apply le_S_n in L. inversion W as [|? ? Ww Wws]; subst. destruct (String.eqb w ""); [injection H as <- <-; auto|].
    destruct (mem w _).
    + destruct (parse_loop _ _ _ _ ws) as [fos' ops'] eqn:E. injection H as <- <-.
      destruct (IH ws L fos' ops' E Wws). split; auto. constructor; auto. cbn. auto.
    + assert (B : forall fos ops, (if are_all_individually_flags w (get_set_of_all_flags j) then
        let '(fos, ops) := parse_loop (get_set_of_all_flags j) (get_dict_flag_to_primary_repr j) (get_set_of_all_options j) (get_dict_option_to_primary_repr j) ws in
        (bundle_flags w ++ fos, ops) else ([], w :: ws)) = (fos, ops) -> Forall fo_one_line fos /\ Forall one_line ops).
      { clear fos ops H. intros fos ops H. destruct (are_all_individually_flags _ _).
        - destruct (parse_loop _ _ _ _ ws) as [fos' ops'] eqn:E. injection H as <- <-.
          destruct (IH ws L fos' ops' E Wws). split; auto. apply Forall_app. split; auto.
          destruct w as [|c w]; cbn [bundle_flags]; [constructor|]. apply Forall_map.
          destruct Ww as [_ Ww]. apply chars_one_line in Ww. eapply Forall_impl; [|exact Ww]. intros a A. split; [discriminate|exact A].
        - injection H as <- <-. auto. }
      destruct (mem w _); [|auto]. destruct ws as [|arg ws]; [auto|]. clear B.
      destruct (parse_loop _ _ _ _ ws) as [fos' ops'] eqn:E. injection H as <- <-. inversion Wws; subst.
      assert (L' : length ws <= n) by (cbn in L; auto with arith).
      destruct (IH ws L' fos' ops' E); auto. split; auto. constructor; auto. cbn. auto.
Qed.
Lemma parse_one_line dir s inv : (forall name j, loads dir name j -> data_one_line j) -> one_line s ->
  parse dir s = Ok inv -> inv_one_line inv /\ Forall one_line (operand_list inv).
Proof.
  unfold parse. intros D S H. destruct (shlex_split s) as [ws|] eqn:E; [|discriminate]. cbn in H.
  apply split_one_line in E; auto. destruct ws as [|name ws]; [discriminate|]. inversion E; subst.
  destruct (get_json_data dir name) as [j|] eqn:J; [|discriminate]. cbn in H. apply get_json_data_ok in J. apply D in J.
  destruct (parse_words j ws) as [fos ops] eqn:Q. injection H as <-. destruct (parse_words_one_line j J ws fos ops Q); auto.
  repeat split; auto.
Qed.
Definition names_one_line (j : json_data) : bool :=
  forallb (fun w => negb (has_char "010" w)) (get_set_of_all_flags j ++ get_set_of_all_options j).
Lemma shipped_names : forallb (fun p => names_one_line (snd p)) shipped_table = true.
Proof. vm_compute. reflexivity. Qed.
Lemma names_one_line_spec j : names_one_line j = true -> data_one_line j.
Proof.
  unfold names_one_line. intros H. rewrite forallb_forall in H. split; apply Forall_forall; intros w W;
    apply has_char_one_line, negb_true_iff, H, in_or_app; auto.
Qed.
Lemma shipped_one_line name j : loads shipped_dir name j -> data_one_line j.
Proof.
  intros H. apply names_one_line_spec. apply shipped_loads in H as [H|[_ ->]].
  - pose proof shipped_names as S. rewrite forallb_forall in S. apply (S _ H).
  - vm_compute. reflexivity.
Qed.

(** ** Input/output information *)
Definition streams (i : io_info) : Prop :=
  (implicit_input i = None \/ implicit_input i = Some stdin) /\ (implicit_output i = None \/ implicit_output i = Some stdout).
Lemma streams_blank inv : streams (blank inv).
Proof. split; now left. Qed.
Lemma streams_first t i i' : streams i -> set_first t i = Ok i' -> streams i'.
Proof. unfold set_first. destruct (operand_list_typer i); [discriminate|]. now intros H [= <-]. Qed.
Lemma streams_last t i i' : streams i -> set_last t i = Ok i' -> streams i'.
Proof. unfold set_last. destruct (operand_list_typer i); [discriminate|]. now intros H [= <-]. Qed.
Lemma streams_stdin b i : streams i -> streams (set_implicit_use_of_stdin b i).
Proof. destruct b; auto. intros [A B]. split; [now right|exact B]. Qed.
Lemma streams_stdout b i : streams i -> streams (set_implicit_use_of_stdout b i).
Proof. destruct b; auto. intros [A B]. split; [exact A|now right]. Qed.
Ltac streamed := repeat first
  [ assumption | apply streams_stdin | apply streams_stdout
  | match goal with
    | |- streams (set_all _ ?a) => change (streams a)
    | H : set_first _ _ = Ok ?i |- streams ?i => eapply streams_first; [|exact H]; clear H
    | H : set_last _ _ = Ok ?i |- streams ?i => eapply streams_last; [|exact H]; clear H
    end ].
Ltac stre :=
  intros inv i; pose proof (streams_blank inv) as B;
  unfold io_alt_bigram_aux_reduce, io_stdin_stdout, io_awk, io_cat, io_comm, io_sort,
  io_tr, io_diff, io_grep, io_rm, io_sed, io_seq, io_set_diff, io_tee, io_uniq, io_wc, io_xargs,
  if_no_operands_given_stdin_implicitly_used, operand_list_length, all_operands_are_streaming_inputs,
  all_but_first_operand_is_streaming_input, all_but_last_operand_is_streaming_input, only_last_operand_is_stream_output,
  set_all_operands_as_config_arg_type_string, set_all_operands_as_arg_string,
  all_operands_are_streaming_outputs, all_operands_are_other_outputs, all_operands_are_other_inputs,
  set_first_operand_as_config_arg_type_string, set_first_operand_as_config_arg_type_filename_or_std_descriptor, assert_;
  repeat match goal with |- context [contains_one_of ?a ?b] => destruct (contains_one_of a b) end;
  repeat match goal with |- context [Nat.eqb ?a ?b] => destruct (Nat.eqb a b) end;
  cbn [negb andb bind];
  repeat match goal with |- context [bind (set_first ?t ?i) _] => destruct (set_first t i) eqn:?; cbn [bind] end;
  intros H; first [discriminate H | apply Ok_inj in H; subst i; streamed | streamed].
Lemma all_stream : Forall (fun p => forall inv i, snd p inv (blank inv) = Ok i -> streams i) io_generator_classes.
Proof.
  unfold io_generator_classes.
  repeat (apply Forall_cons; [cbn [snd]|]).
  all: try (stre; fail).
  - (* mv *)
    intros inv i. pose proof (streams_blank inv) as B. unfold io_mv.
    destruct (length (get_flag_option_list_filtered_with inv ["-t"])) as [|[|?]]; [|intros H; apply Ok_inj in H; subst i; streamed|discriminate].
    unfold all_but_last_operand_is_other_input.
    destruct (get_last (blank inv)) as [t|] eqn:T; [|discriminate]. cbn [bind].
    destruct (set_last _ _) as [i'|] eqn:S; [|discriminate]. cbn [bind]. intros H.
    eapply streams_last; [|exact H]. eapply streams_last; [|exact S]. exact B.
  - constructor.
Qed.
Lemma info_streams dir inv i : get_input_output_info dir inv = Some i -> streams i.
Proof.
  unfold get_input_output_info, init_io_info, dict_get.
  destruct (dict_find io_generator_classes (representation_of (cmd_name inv))) as [g|] eqn:G; [|discriminate].
  cbn [bind]. pose proof (generator_parametric _ _ G) as Q.
  destruct (get_flagoption_list_typer dir inv) as [ts|] eqn:T; [|discriminate]. cbn [bind].
  specialize (Q inv (blank inv) ts).
  change (with_fot ts (blank inv)) with (new_io_info ts (length (operand_list inv))) in Q. rewrite Q.
  destruct (g inv (blank inv)) as [i'|] eqn:E; [|discriminate]. cbn. intros H. injection H as <-.
  pose proof all_stream as F. rewrite Forall_forall in F. apply (F _ (dict_find_In' _ _ _ G) _ _ E).
Qed.
Lemma typer_one_line s t x : one_line s -> apply_typer_to_arg s t = Ok x -> arg_one_line x.
Proof.
  destruct t as [a| |]; cbn [apply_typer_to_arg]; [|intros S [= <-]; exact S|discriminate].
  destruct (is_any_input a); [|destruct (is_any_output a); [|discriminate]]; intros S [= <-]; cbn.
  - unfold compute_actual_el_for_input. now destruct (String.eqb s "-").
  - unfold compute_actual_el_for_output. now destruct (String.eqb s "-").
Qed.
Lemma map_result_P {A B} (Q : A -> Prop) (R : B -> Prop) (f : A -> result B) : (forall a b, Q a -> f a = Ok b -> R b) ->
  forall l l', Forall Q l -> map_result f l = Ok l' -> Forall R l'.
Proof.
  intros H l l' L M. apply map_result_Forall2 in M. induction M; constructor; inversion L; subst; eauto.
Qed.
Lemma combine_P {A B} (Q : A -> Prop) (l : list A) : forall m : list B, Forall Q l -> Forall (fun p => Q (fst p)) (combine l m).
Proof. induction l as [|a l IH]; intros [|b m] F; cbn; constructor; inversion F; auto. Qed.
Lemma with_io_one_line dir inv c : with_io dir inv c -> inv_one_line inv -> Forall one_line (operand_list inv) -> inv_io_one_line c.
Proof.
  intros (i & G & A) [N F] O. apply info_streams in G as [S1 S2]. unfold apply_io_info in A.
  destruct (map_result _ (combine (flag_option_list inv) _)) as [fos|] eqn:E1; [|discriminate]. cbn in A.
  destruct (map_result _ (combine (operand_list inv) _)) as [ops|] eqn:E2; [|discriminate]. cbn in A. injection A as <-.
  repeat split; cbn [io_cmd_name io_flag_option_list io_operand_list io_implicit_input io_implicit_output]; auto.
  - eapply map_result_P; [|exact (combine_P fo_one_line _ (flagoption_list_typer i) F)|exact E1]. intros [fo t] b Q R. cbn in Q, R.
    destruct fo as [n|n v]; cbn in R; [injection R as <-; exact Q|]. destruct Q as [Qn Qv].
    destruct t; cbn [assert_ bind] in R; try discriminate; destruct (apply_typer_to_arg v _) eqn:E; try discriminate; cbn in R;
      injection R as <-; split; auto; eapply typer_one_line; eauto.
  - eapply map_result_P; [|exact (combine_P one_line _ (operand_list_typer i) O)|exact E2]. intros [o t] b Q R. eapply typer_one_line; eauto.
  - destruct S1 as [-> | ->]; exact Logic.I.
  - destruct S2 as [-> | ->]; exact Logic.I.
Qed.

(** ** Parallelizability information *)
(** What the generators put in the two pieces of information that are not printed. *)
Definition hidden (p : parallelizer) : Prop :=
  p_info_splitter_mapper p = NO_ADD_INPUT /\
  p_info_mapper_aggregator p = match ms_cmd_name (p_mapper p) with Some "bigram_aux_map" => 2 | _ => 0 end.
Lemma hidden_parts p q : hidden p -> hidden q -> same_parts p q -> p = q.
Proof.
  destruct p as [s m a i n], q as [s' m' a' i' n']. unfold hidden, same_parts. cbn. intros [-> ->] [-> ->] (-> & -> & ->). reflexivity.
Qed.
Lemma annotated_text dir inv l b : annotated dir inv (Some (l, b)) ->
  Forall (fun p => mapper_one_line (p_mapper p) /\ agg_one_line (p_aggregator p) /\ hidden p) l.
Proof.
  assert (S : mapper_one_line seq_mapper) by (split; exact Logic.I).
  set (ok := fun p => mapper_one_line (p_mapper p) /\ agg_one_line (p_aggregator p) /\ hidden p).
  assert (C : forall a, agg_one_line a -> Forall ok [chunks a]).
  { intros a A. apply Forall_cons; [|apply Forall_nil]. split; [exact S|]. split; [exact A|split; reflexivity]. }
  assert (L : forall a, agg_one_line a -> Forall ok (stateless a)).
  { intros a A. apply Forall_cons; [|apply Forall_cons; [|apply Forall_nil]]; (split; [exact S|]; split; [exact A|split; reflexivity]). }
  assert (T : forall n, one_line n -> n <> "None" -> mapper_one_line (custom_mapper n [])).
  { intros n N E. split; [apply Forall_nil|]. split; assumption. }
  intros H. inversion H; subst; try apply Forall_nil; try (apply L; (exact Logic.I || now apply has_char_one_line));
    try (apply C; (exact Logic.I || now apply has_char_one_line)).
  - apply C. cbn. split; [exact Logic.I|]. split; [|exact Logic.I]. constructor; [|constructor]. eexists. split; [reflexivity|]. now apply has_char_one_line.
  - apply Forall_cons; [|apply Forall_nil]. split; [apply T; [now apply has_char_one_line|discriminate]|].
    split; [now apply has_char_one_line|split; reflexivity].
  - apply Forall_cons; [|apply Forall_nil]. split; [apply T; [now apply has_char_one_line|discriminate]|].
    split; [now apply has_char_one_line|split; reflexivity].
Qed.
