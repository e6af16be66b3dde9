(** * Input/output information per command *)
Require Import Verif.PyBase Verif.JsonData Verif.Parser Verif.Access Verif.IOInfo Verif.IOGen
  Verif.SpecParser Verif.SpecIO Verif.ParserFacts Verif.IOFacts.
From Coq Require Import Permutation Lia.

Local Arguments mem : simpl never.
Local Arguments contains_one_of : simpl never.

Definition generator_of (inv : invocation) : option generator :=
  dict_find io_generator_classes (representation_of (cmd_name inv)).

Lemma with_io_ok dir inv c g fot ot a b xs :
  generator_of inv = Some g -> g inv (blank inv) = Ok (mkIO fot ot a b) ->
  apply_operands (operand_list inv) ot = Ok xs ->
  with_io dir inv c <->
  shape dir inv c xs /\ io_implicit_input c = a /\ io_implicit_output c = b.
Proof.
  intros G E O. rewrite (with_io_iff _ _ _ _ G). split.
  - intros (i' & E' & ops & O' & S). rewrite E in E'. injection E' as <-.
    cbn in O'. rewrite O in O'. injection O' as <-. exact S.
  - intros S. eauto.
Qed.
Lemma with_io_raise dir inv c g e :
  generator_of inv = Some g -> g inv (blank inv) = Raise e -> ~ with_io dir inv c.
Proof. intros G E H. apply (with_io_iff _ _ _ _ G) in H as (i & E' & _). congruence. Qed.

Lemma stdin_yes c (P : Prop) : P -> (stdin_iff c P <-> io_implicit_input c = Some stdin).
Proof. unfold stdin_iff. tauto. Qed.
Lemma stdin_no c (P : Prop) : ~ P -> (stdin_iff c P <-> io_implicit_input c = None).
Proof. unfold stdin_iff. tauto. Qed.
Lemma stdout_yes c (P : Prop) : P -> (stdout_iff c P <-> io_implicit_output c = Some stdout).
Proof. unfold stdout_iff. tauto. Qed.
Lemma stdout_no c (P : Prop) : ~ P -> (stdout_iff c P <-> io_implicit_output c = None).
Proof. unfold stdout_iff. tauto. Qed.

Ltac gen_of H := unfold generator_of; first [rewrite H | rewrite <- H]; reflexivity.

Definition streams (inv : invocation) : list io_arg := map (in_file STREAM_INPUT) (operand_list inv).

Lemma apply_in_repeat a l : input_access a ->
  apply_operands l (repeat (FILESTD a) (length l)) = Ok (map (in_file a) l).
Proof. intros H. apply apply_operands_repeat, apply_in, H. Qed.
Lemma apply_out_repeat a l : output_access a ->
  apply_operands l (repeat (FILESTD a) (length l)) = Ok (map (out_file a) l).
Proof. intros H. apply apply_operands_repeat, apply_out, H. Qed.
Lemma apply_string_repeat l : apply_operands l (repeat ARGSTRING (length l)) = Ok (map ArgString l).
Proof. apply apply_operands_repeat. reflexivity. Qed.
Lemma apply_string_first o l :
  apply_operands (o :: l) (ARGSTRING :: repeat (FILESTD STREAM_INPUT) (length l)) =
  Ok (ArgString o :: map (in_file STREAM_INPUT) l).
Proof. apply apply_first. reflexivity. Qed.

Ltac app := first
  [ reflexivity
  | match goal with |- apply_operands ?l _ = _ => first
      [ exact (apply_in_repeat _ l in_stream) | exact (apply_in_repeat _ l in_other)
      | exact (apply_in_repeat _ l in_config) | exact (apply_out_repeat _ l out_stream)
      | exact (apply_out_repeat _ l out_other) | exact (apply_string_repeat l) ] end
  | match goal with |- apply_operands (?o :: ?l) _ = _ => exact (apply_string_first o l) end ].
Ltac unfold_gens := unfold io_alt_bigram_aux_reduce, io_stdin_stdout, io_awk, io_cat, io_comm, io_sort,
  io_tr, io_diff, io_grep, io_rm, io_mv, io_sed, io_seq, io_set_diff, io_tee, io_uniq, io_wc, io_xargs,
  if_no_operands_given_stdin_implicitly_used, blank, operand_list_length,
  set_all_operands_as_config_arg_type_string, set_all_operands_as_arg_string,
  all_operands_are_streaming_outputs, all_operands_are_other_outputs, all_operands_are_other_inputs,
  set_first_operand_as_config_arg_type_string, set_first_operand_as_config_arg_type_filename_or_std_descriptor,
  set_all, with_operand_typer, new_io_info.
Ltac rewrite_flags := repeat match goal with H : contains_one_of _ _ = _ |- _ => rewrite H end.
Ltac use_ok G E :=
  eapply with_io_ok; [exact G
    | unfold_gens; rewrite ?E; rewrite_flags; cbn -[repeat]; rewrite ?repeat_length; reflexivity
    | rewrite ?E; cbn -[repeat map apply_operands]; app ].
Ltac use_raise G E :=
  split; [intros X; exfalso; revert X; eapply with_io_raise; [exact G|];
          unfold_gens; rewrite ?E; rewrite_flags; cbn -[repeat]; reflexivity|].
Ltac flag1 n := destruct (contains_one_of _ [n]) eqn:?H;
  [apply contains1 in H as ? | apply contains1_false in H as ?].

Lemma stdin_iff_iff c (P Q : Prop) : (P <-> Q) -> (stdin_iff c P <-> stdin_iff c Q).
Proof. unfold stdin_iff. tauto. Qed.
Lemma and_true_l (A B : Prop) : A -> (A /\ B <-> B).
Proof. tauto. Qed.

Lemma repeat_snoc {A} (t : A) k : repeat t (S k) = repeat t k ++ [t].
Proof. induction k; [reflexivity|]. cbn in *. now rewrite IHk at 1. Qed.
Lemma set_last_snoc f l x a b t : set_last t (mkIO f (l ++ [x]) a b) = Ok (mkIO f (l ++ [t]) a b).
Proof.
  unfold set_last. cbn [operand_list_typer]. destruct (l ++ [x]) eqn:E; [destruct l; discriminate|].
  rewrite <- E, removelast_last. reflexivity.
Qed.
Lemma mv_typers k :
  bind (all_but_last_operand_is_other_input (new_io_info [] (S k))) only_last_operand_is_other_output =
  Ok (mkIO [] (repeat (FILESTD OTHER_INPUT) k ++ [FILESTD OTHER_OUTPUT]) None None).
Proof.
  unfold all_but_last_operand_is_other_input, all_operands_are_other_inputs, set_all, with_operand_typer.
  cbn [new_io_info operand_list_typer implicit_input implicit_output flagoption_list_typer].
  rewrite repeat_length. rewrite (repeat_snoc (FILESTD OTHER_INPUT)).
  unfold get_last, new_io_info. cbn [repeat operand_list_typer bind flagoption_list_typer implicit_input implicit_output].
  rewrite set_last_snoc. cbn [bind].
  unfold only_last_operand_is_other_output. apply set_last_snoc.
Qed.

Section commands.
  Variables (dir : data_dir) (inv : invocation) (c : invocation_io).
  Notation ops := (operand_list inv).
  Notation n := (length (operand_list inv)).

  Lemma spec_cat : generator_of inv = Some io_cat ->
    with_io dir inv c <-> shape dir inv c (streams inv) /\ stdin_iff c (ops = []) /\ stdout_iff c True.
  Proof.
    intros G. rewrite stdout_yes by exact I. unfold streams.
    destruct ops as [|o l] eqn:E.
    - rewrite stdin_yes by reflexivity. use_ok G E.
    - rewrite stdin_no by discriminate. use_ok G E.
  Qed.

  Lemma spec_wc : generator_of inv = Some io_wc ->
    with_io dir inv c <-> ~ uses inv "--files0-from" /\
      shape dir inv c (streams inv) /\ stdin_iff c (ops = []) /\ stdout_iff c True.
  Proof.
    intros G. rewrite stdout_yes by exact I. unfold streams.
    destruct (contains_one_of inv ["--files0-from"]) eqn:F.
    - use_raise G G. apply contains1 in F. tauto.
    - assert (N : ~ uses inv "--files0-from") by (now apply contains1_false).
      rewrite (and_true_l _ _ N).
      destruct ops as [|o l] eqn:E.
      + rewrite stdin_yes by reflexivity. use_ok G E.
      + rewrite stdin_no by discriminate. use_ok G E.
  Qed.

  Lemma spec_sort : generator_of inv = Some io_sort ->
    with_io dir inv c <-> shape dir inv c (streams inv) /\
      stdin_iff c (ops = [] /\ ~ uses inv "--files0-from") /\ stdout_iff c (~ uses inv "-o").
  Proof.
    intros G. unfold streams.
    destruct (contains_one_of inv ["-o"]) eqn:F; [apply contains1 in F as F'|apply contains1_false in F as F'];
    [rewrite stdout_no by tauto|rewrite stdout_yes by exact F'];
    (destruct (contains_one_of inv ["--files0-from"]) eqn:H; [apply contains1 in H as H'|apply contains1_false in H as H']);
    (destruct ops as [|o l] eqn:E).
    all: try (rewrite stdin_no by (intuition congruence); use_ok G E).
    all: rewrite stdin_yes by tauto; use_ok G E.
  Qed.

  Lemma spec_stdin_stdout : generator_of inv = Some io_stdin_stdout ->
    with_io dir inv c <-> shape dir inv c (streams inv) /\ stdin_iff c True /\ stdout_iff c True.
  Proof. intros G. rewrite stdout_yes, stdin_yes by exact I. unfold streams. use_ok G G. Qed.

  Lemma spec_alt_reduce : generator_of inv = Some io_alt_bigram_aux_reduce ->
    with_io dir inv c <-> shape dir inv c (streams inv) /\ stdin_iff c False /\ stdout_iff c True.
  Proof. intros G. rewrite stdout_yes, stdin_no by tauto. unfold streams. use_ok G G. Qed.

  Lemma spec_diff : generator_of inv = Some io_diff ->
    with_io dir inv c <-> shape dir inv c (streams inv) /\ stdin_iff c False /\ stdout_iff c True.
  Proof. intros G. rewrite stdout_yes, stdin_no by tauto. unfold streams. use_ok G G. Qed.

  Lemma spec_comm : generator_of inv = Some io_comm ->
    with_io dir inv c <-> n = 2 /\ shape dir inv c (streams inv) /\ stdin_iff c False /\ stdout_iff c True.
  Proof.
    intros G. rewrite stdout_yes, stdin_no by tauto. unfold streams.
    destruct ops as [|o [|o2 [|o3 l]]] eqn:E; try (use_raise G E; cbn; intros [? _]; lia).
    rewrite and_true_l by reflexivity.
    use_ok G E.
  Qed.

  Lemma spec_tr : generator_of inv = Some io_tr ->
    with_io dir inv c <-> shape dir inv c (map ArgString ops) /\ stdin_iff c True /\ stdout_iff c True.
  Proof. intros G. rewrite stdout_yes, stdin_yes by exact I. use_ok G G. Qed.

  Lemma spec_xargs : generator_of inv = Some io_xargs ->
    with_io dir inv c <-> shape dir inv c (map ArgString ops) /\ stdin_iff c True /\ stdout_iff c True.
  Proof. intros G. rewrite stdout_yes, stdin_yes by exact I. use_ok G G. Qed.

  Lemma spec_seq : generator_of inv = Some io_seq ->
    with_io dir inv c <-> shape dir inv c (map ArgString ops) /\ stdin_iff c False /\ stdout_iff c True.
  Proof. intros G. rewrite stdout_yes, stdin_no by tauto. use_ok G G. Qed.

  Lemma spec_rm : generator_of inv = Some io_rm ->
    with_io dir inv c <-> shape dir inv c (map (out_file OTHER_OUTPUT) ops) /\ stdin_iff c False /\ stdout_iff c False.
  Proof. intros G. rewrite stdout_no, stdin_no by tauto. use_ok G G. Qed.

  Lemma spec_tee : generator_of inv = Some io_tee ->
    with_io dir inv c <-> shape dir inv c (map (out_file STREAM_OUTPUT) ops) /\ stdin_iff c True /\ stdout_iff c True.
  Proof. intros G. rewrite stdout_yes, stdin_yes by tauto. use_ok G G. Qed.

  Lemma spec_set_diff : generator_of inv = Some io_set_diff ->
    with_io dir inv c <-> n = 1 /\ shape dir inv c (map (in_file CONFIG_INPUT) ops) /\
      stdin_iff c True /\ stdout_iff c True.
  Proof.
    intros G. rewrite stdout_yes, stdin_yes by tauto.
    destruct ops as [|o [|o2 l]] eqn:E; try (use_raise G E; cbn; intros [? _]; lia).
    rewrite and_true_l by reflexivity.
    use_ok G E.
  Qed.

  Lemma spec_awk : generator_of inv = Some io_awk ->
    with_io dir inv c <->
    exists xs, script_operand (uses inv "-f") ops xs /\ shape dir inv c xs /\
      stdin_iff c ((uses inv "-f" /\ n = 0) \/ (~ uses inv "-f" /\ n = 1)) /\ stdout_iff c True.
  Proof.
    intros G. unfold script_operand. setoid_rewrite (stdout_yes c _ I).
    destruct (contains_one_of inv ["-f"]) eqn:F; [apply contains1 in F as F'|apply contains1_false in F as F'].
    - transitivity (shape dir inv c (map (in_file STREAM_INPUT) ops) /\ stdin_iff c (ops = []) /\ io_implicit_output c = Some stdout).
      + destruct ops as [|o l] eqn:E.
        * rewrite stdin_yes by reflexivity. use_ok G E.
        * rewrite stdin_no by discriminate. use_ok G E.
      + assert (Q : (uses inv "-f" /\ n = 0 \/ ~ uses inv "-f" /\ n = 1) <-> ops = []).
        { destruct ops; cbn; intuition congruence. }
        setoid_rewrite (stdin_iff_iff c _ _ Q). split; [intros H; eexists; split; [left; eauto|exact H]|].
        intros (xs & [[_ ->]|[K _]] & H); [exact H|tauto].
    - destruct ops as [|o l] eqn:E.
      + use_raise G E. intros (xs & [[K _]|[_ (o & l & X & _)]] & _); [tauto|discriminate].
      + transitivity (shape dir inv c (ArgString o :: map (in_file STREAM_INPUT) l) /\ stdin_iff c (l = []) /\ io_implicit_output c = Some stdout).
        * destruct l as [|o2 l].
          -- rewrite stdin_yes by reflexivity. use_ok G E.
          -- rewrite stdin_no by discriminate. use_ok G E.
        * assert (Q : (uses inv "-f" /\ length (o :: l) = 0 \/ ~ uses inv "-f" /\ length (o :: l) = 1) <-> l = []).
          { destruct l; cbn; intuition congruence. }
          setoid_rewrite (stdin_iff_iff c _ _ Q). split; [intros H; eexists; split; [right; eauto|exact H]|].
          intros (xs & [[K _]|[_ (o' & l' & X & ->)]] & H); [tauto|injection X as <- <-; exact H].
  Qed.
  Lemma spec_grep : generator_of inv = Some io_grep ->
    let S := uses inv "-e" \/ uses inv "-f" in
    with_io dir inv c <->
    exists xs, script_operand S ops xs /\ shape dir inv c xs /\
      stdin_iff c ((S /\ n = 0) \/ (~ S /\ n = 1)) /\ stdout_iff c (~ uses inv "-q").
  Proof.
    intros G S. unfold script_operand.
    assert (O : exists o, (stdout_iff c (~ uses inv "-q") <-> io_implicit_output c = o) /\
                o = if contains_one_of inv ["-q"] then None else Some stdout).
    { destruct (contains_one_of inv ["-q"]) eqn:Q; eexists; (split; [|reflexivity]).
      - apply contains1 in Q. apply stdout_no. tauto.
      - apply contains1_false in Q. apply stdout_yes. exact Q. }
    destruct O as (o0 & O1 & O2). setoid_rewrite O1. subst o0.
    destruct (contains_one_of inv ["-e"; "-f"]) eqn:F; [apply contains2 in F as F'|apply contains2_false in F as F']; fold S in F'.
    - transitivity (shape dir inv c (map (in_file STREAM_INPUT) ops) /\ stdin_iff c (ops = []) /\ io_implicit_output c = if contains_one_of inv ["-q"] then None else Some stdout).
      + destruct ops as [|o l] eqn:E.
        * rewrite stdin_yes by reflexivity. destruct (contains_one_of inv ["-q"]) eqn:?; use_ok G E.
        * rewrite stdin_no by discriminate. destruct (contains_one_of inv ["-q"]) eqn:?; use_ok G E.
      + assert (Q : (S /\ n = 0 \/ ~ S /\ n = 1) <-> ops = []).
        { destruct ops; cbn; intuition congruence. }
        setoid_rewrite (stdin_iff_iff c _ _ Q). split; [intros H; eexists; split; [left; eauto|exact H]|].
        intros (xs & [[_ ->]|[K _]] & H); [exact H|tauto].
    - destruct ops as [|o l] eqn:E.
      + destruct (contains_one_of inv ["-q"]) eqn:?; use_raise G E; (intros (xs & [[K _]|[_ (o & l & X & _)]] & _); [tauto|discriminate]).
      + transitivity (shape dir inv c (ArgString o :: map (in_file STREAM_INPUT) l) /\ stdin_iff c (l = []) /\ io_implicit_output c = if contains_one_of inv ["-q"] then None else Some stdout).
        * destruct l as [|o2 l].
          -- rewrite stdin_yes by reflexivity. destruct (contains_one_of inv ["-q"]) eqn:?; use_ok G E.
          -- rewrite stdin_no by discriminate. destruct (contains_one_of inv ["-q"]) eqn:?; use_ok G E.
        * assert (Q : (S /\ length (o :: l) = 0 \/ ~ S /\ length (o :: l) = 1) <-> l = []).
          { destruct l; cbn; intuition congruence. }
          setoid_rewrite (stdin_iff_iff c _ _ Q). split; [intros H; eexists; split; [right; eauto|exact H]|].
          intros (xs & [[K _]|[_ (o' & l' & X & ->)]] & H); [tauto|injection X as <- <-; exact H].
  Qed.
  Lemma spec_sed : generator_of inv = Some io_sed ->
    let S := uses inv "-e" \/ uses inv "-f" in
    with_io dir inv c <->
    exists xs, script_operand S ops xs /\ shape dir inv c xs /\ stdin_iff c True /\ stdout_iff c True.
  Proof.
    intros G S. unfold script_operand. setoid_rewrite (stdout_yes c _ I). setoid_rewrite (stdin_yes c _ I).
    destruct (contains_one_of inv ["-e"; "-f"]) eqn:F; [apply contains2 in F as F'|apply contains2_false in F as F']; fold S in F'.
    - transitivity (shape dir inv c (map (in_file STREAM_INPUT) ops) /\ io_implicit_input c = Some stdin /\ io_implicit_output c = Some stdout).
      + use_ok G G.
      + split; [intros H; eexists; split; [left; eauto|exact H]|].
        intros (xs & [[_ ->]|[K _]] & H); [exact H|tauto].
    - destruct ops as [|o l] eqn:E.
      + use_raise G E. intros (xs & [[K _]|[_ (o & l & X & _)]] & _); [tauto|discriminate].
      + transitivity (shape dir inv c (ArgString o :: map (in_file STREAM_INPUT) l) /\ io_implicit_input c = Some stdin /\ io_implicit_output c = Some stdout).
        * use_ok G E.
        * split; [intros H; eexists; split; [right; eauto|exact H]|].
          intros (xs & [[K _]|[_ (o' & l' & X & ->)]] & H); [tauto|injection X as <- <-; exact H].
  Qed.

  Lemma spec_uniq : generator_of inv = Some io_uniq ->
    with_io dir inv c <->
    (ops = [] /\ shape dir inv c [] /\ stdin_iff c True /\ stdout_iff c True) \/
    (exists f, ops = [f] /\ shape dir inv c [in_file STREAM_INPUT f] /\ stdin_iff c False /\ stdout_iff c True) \/
    (exists f g, ops = [f; g] /\ shape dir inv c [in_file STREAM_INPUT f; out_file STREAM_OUTPUT g] /\
       stdin_iff c False /\ stdout_iff c False).
  Proof.
    intros G. assert (T : ~ False) by tauto.
    setoid_rewrite (stdout_yes c _ I). setoid_rewrite (stdin_yes c _ I).
    setoid_rewrite (stdin_no c _ T). setoid_rewrite (stdout_no c _ T).
    destruct ops as [|o [|o2 [|o3 l]]] eqn:E.
    - transitivity (shape dir inv c [] /\ io_implicit_input c = Some stdin /\ io_implicit_output c = Some stdout).
      + use_ok G E.
      + split; [auto|]. intros [[_ H]|[(f & X & _)|(f & g & X & _)]]; [exact H|discriminate..].
    - transitivity (shape dir inv c [in_file STREAM_INPUT o] /\ io_implicit_input c = None /\ io_implicit_output c = Some stdout).
      + use_ok G E.
      + split; [intros H; right; left; eauto|]. intros [[X H]|[(f & X & H)|(f & g & X & _)]]; try discriminate.
        injection X as <-. exact H.
    - transitivity (shape dir inv c [in_file STREAM_INPUT o; out_file STREAM_OUTPUT o2] /\ io_implicit_input c = None /\ io_implicit_output c = None).
      + use_ok G E.
      + split; [intros H; right; right; eauto 6|]. intros [[X H]|[(f & X & H)|(f & g & X & H)]]; try discriminate.
        injection X as <- <-. exact H.
    - use_raise G E. intros [[X H]|[(f & X & H)|(f & g & X & H)]]; discriminate.
  Qed.

  Lemma spec_mv : generator_of inv = Some io_mv ->
    with_io dir inv c <->
    ((exists l o, ~ uses inv "-t" /\ ops = l ++ [o] /\
        shape dir inv c (map (in_file OTHER_INPUT) l ++ [out_file OTHER_OUTPUT o])) \/
     (length (uses_of inv "-t") = 1 /\ shape dir inv c (map (in_file OTHER_INPUT) ops)))
    /\ stdin_iff c False /\ stdout_iff c False.
  Proof.
    intros G. assert (T : ~ False) by tauto. rewrite (stdin_no c _ T), (stdout_no c _ T).
    destruct (length (uses_of inv "-t")) as [|[|k]] eqn:L.
    - assert (N : ~ uses inv "-t") by (apply uses_of_nil, length_zero_iff_nil, L).
      destruct (rev ops) as [|o l'] eqn:R.
      + assert (E : ops = []) by (apply (f_equal (@rev _)) in R; rewrite rev_involutive in R; exact R).
        split.
        * intros X. exfalso. revert X. eapply with_io_raise; [exact G|]. unfold io_mv. rewrite filtered1, L.
          unfold blank. rewrite E. reflexivity.
        * rewrite E. intros [[(l & o & _ & X & _)|[X _]] _]; [destruct l; discriminate|discriminate].
      + apply (f_equal (@rev _)) in R. rewrite rev_involutive in R. cbn in R. set (l := rev l') in *. clearbody l. clear l'.
        transitivity (shape dir inv c (map (in_file OTHER_INPUT) l ++ [out_file OTHER_OUTPUT o]) /\
                      io_implicit_input c = None /\ io_implicit_output c = None).
        * eapply with_io_ok; [exact G| |].
          -- unfold io_mv. rewrite filtered1, L. unfold blank. rewrite R, app_length. cbn [length].
             rewrite Nat.add_1_r. apply mv_typers.
          -- rewrite R. cbn [operand_list_typer]. apply apply_operands_last; [apply apply_in, in_other|apply apply_out, out_other].
        * split.
          -- intros [H K]. split; [left; eauto 6|exact K].
          -- intros [[(l2 & o2 & _ & X & H)|[X _]] K]; [|discriminate].
             rewrite R in X. apply app_inj_tail in X as [<- <-]. auto.
    - transitivity (shape dir inv c (map (in_file OTHER_INPUT) ops) /\ io_implicit_input c = None /\ io_implicit_output c = None).
      + eapply with_io_ok; [exact G| |].
        * unfold io_mv. rewrite filtered1, L. unfold_gens. cbn -[repeat]. rewrite repeat_length. reflexivity.
        * app.
      + split; [tauto|]. intros [[(l & o & X & _)|H] K]; [|tauto]. exfalso. apply uses_of_nil in X. rewrite X in L. discriminate.
    - split.
      + intros X. exfalso. revert X. eapply with_io_raise; [exact G|]. unfold io_mv. rewrite filtered1, L. reflexivity.
      + intros [[(l & o & X & _)|[X _]] K]; [|discriminate]. apply uses_of_nil in X. rewrite X in L. discriminate.
  Qed.
End commands.
