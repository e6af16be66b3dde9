(** * Theorems about recognising splitters, specifications and concatenation (C87) *)
Require Import Verif.PyBase Verif.JsonData Verif.Shlex Verif.Parser Verif.ShippedData Verif.Access Verif.IOInfo Verif.IOGen Verif.IOVars
  Verif.Transformers Verif.ParaTypes Verif.MapperAgg Verif.Kinds Verif.SpecParser Verif.SpecIO Verif.SpecPara Verif.SpecVars Verif.SpecMapper
  Verif.ParaProps Verif.IOVarsFacts Verif.P_Para Verif.P_Mapper.
From Coq Require Import Lia.
Local Open Scope Z_scope.

(** ** The name of the command is never changed by a traversal. *)
Lemma assign_cmd {A} (t : eff A) set s : (forall x c, v_cmd (set x c) = v_cmd c) ->
  v_cmd (fst (fst (assign t set s))) = v_cmd (fst s).
Proof.
  intros H. destruct s as [c l]. unfold assign. destruct (t _) as [[m l'] [x|e]]; cbn [fst]; [now rewrite H|reflexivity].
Qed.
Lemma then_cmd {A B} (p : method A) (q : method B) s :
  (forall s, v_cmd (fst (fst (p s))) = v_cmd (fst s)) -> (forall s, v_cmd (fst (fst (q s))) = v_cmd (fst s)) ->
  v_cmd (fst (fst (then_ p q s))) = v_cmd (fst s).
Proof.
  intros P Q. unfold then_. specialize (P s). destruct (p s) as [s' [x|e]]; cbn [fst] in *; [now rewrite Q|exact P].
Qed.
Lemma flat_map_cmd f s : v_cmd (fst (fst (flat_map_anything_non_names f s))) = v_cmd (fst s).
Proof.
  unfold flat_map_anything_non_names. apply then_cmd; [intros; now apply assign_cmd|].
  intros s1. apply then_cmd; [intros; now apply assign_cmd|]. intros s2. apply then_cmd; intros; now apply assign_cmd.
Qed.
Lemma remove_cmd c r : finished (remove_streaming_inputs c) = Ok r -> v_cmd r = v_cmd c.
Proof.
  unfold remove_streaming_inputs, remove_streaming. pose proof (flat_map_cmd (remove_fun is_stream_input) (c, [])) as H.
  destruct (flat_map_anything_non_names _ _) as [[c' l] [x|e]]; cbn [finished fst] in *; congruence.
Qed.
Lemma replace_cmd c f t r : finished (replace_var c f t) = Ok r -> v_cmd r = v_cmd c.
Proof.
  unfold replace_var, map_var. intros E.
  match type of E with context [flat_map_anything_non_names ?g ?s] =>
    pose proof (flat_map_cmd g s) as H; destruct (flat_map_anything_non_names g s) as [[c' l] [x|e]] end;
    cbn [finished fst] in *; congruence.
Qed.

(** ** C87: the aggregator has the kind of its specification *)
Theorem C87_specification : forall dir a orig ins out g,
  get_aggregator dir a orig ins out = Ok (Some g) ->
  is_aggregator_concatenate (Aggregates g) = is_aggregator_spec_concatenate a.
Proof.
  intros dir a orig ins out g. unfold get_aggregator. destruct (agg_is_implemented a); cbn [negb]; [|discriminate].
  destruct a as [k b|k t b|k s b]; unfold is_aggregator_spec_concatenate; cbn [agg_kind_of].
  - unfold get_aggregator_nonfunc. destruct k; try discriminate; try (destruct (Nat.eqb _ _); discriminate).
    now intros [= <-].
  - unfold get_aggregator_transformer. destruct (arity_check k ins); cbn [bind]; [|discriminate].
    destruct (finished _); cbn [bind]; [|discriminate]. destruct (register_inputs _ _); cbn [bind]; [|discriminate].
    destruct (finished _); cbn [bind]; [|discriminate]. now intros [= <-].
  - unfold get_aggregator_string. destruct (parse dir s); cbn [bind]; [|discriminate].
    destruct (only_flags _); cbn [bind]; [|discriminate]. cbv zeta.
    destruct k; try (destruct (Nat.eqb _ _); cbn [assert_ bind]); try discriminate; now intros [= <-].
Qed.
Print Assumptions C87_specification.
Theorem C87_specification_with_aux : forall dir a i1 aux1 i2 aux2 out aux_out g,
  get_actual_2_ary_aggregator_with_aux dir a i1 aux1 i2 aux2 out aux_out = Ok g ->
  is_aggregator_concatenate (Aggregates g) = is_aggregator_spec_concatenate a.
Proof.
  intros dir a i1 aux1 i2 aux2 out aux_out g. unfold get_actual_2_ary_aggregator_with_aux.
  destruct a as [k b|k t b|k s b]; try discriminate.
  destruct (Nat.eqb _ _); cbn [assert_ bind]; [|discriminate]. destruct (Nat.eqb _ _); cbn [assert_ bind]; [|discriminate].
  destruct (parse dir s); cbn [bind]; [|discriminate]. destruct (only_flags _); cbn [bind]; [|discriminate]. now intros [= <-].
Qed.
Print Assumptions C87_specification_with_aux.

(** What is recognised can be replaced by cat: for all specifications built as their types demand, the
    aggregator is cat of the inputs, in order, without flags. *)
Theorem C87_recognised : forall dir a orig ins out k c, well_kinded a ->
  get_aggregator dir a orig ins out = Ok (Some (k, c)) -> is_aggregator_concatenate (Aggregates (k, c)) = true ->
  v_cmd c = "cat" /\ v_flags c = [] /\ v_ops c = map PVar ins /\ v_in c = PNone /\ v_out c = PVar out.
Proof.
  intros dir a orig ins out k c W G R. rewrite (C87_specification _ _ _ _ _ _ G) in R. unfold is_aggregator_spec_concatenate in R.
  destruct a as [k' b|k' t b|k' s b]; cbn [agg_kind_of well_kinded] in *; destruct k'; try discriminate;
    try (destruct W as [W|[W|W]]; discriminate).
  destruct b; cbn in G; [|discriminate]. injection G as <- <-. now repeat split.
Qed.
Print Assumptions C87_recognised.
(** The types matter: the constructors do not check them. *)
Theorem C87_untyped_refuted : exists a c,
  get_aggregator shipped_dir a sort_example [5; 6] 7 = Ok (Some (CONCATENATE, c)) /\
  is_aggregator_concatenate (Aggregates (CONCATENATE, c)) = true /\ v_cmd c = "sort".
Proof.
  exists (AggString CONCATENATE "sort -m" true). eexists. split; [vm_compute; reflexivity|]. split; reflexivity.
Qed.
Print Assumptions C87_untyped_refuted.

Lemma transformer_cmd k t orig ins out g : get_aggregator_transformer k t orig ins out = Ok (Some g) -> v_cmd (snd g) = v_cmd orig.
Proof.
  unfold get_aggregator_transformer. destruct (arity_check k ins); cbn [bind]; [|discriminate].
  destruct (finished (remove_streaming_inputs _)) as [c1|] eqn:R; cbn [bind]; [|discriminate].
  destruct (register_inputs _ _) as [m|]; cbn [bind]; [|discriminate].
  destruct (finished (replace_var _ _ _)) as [c2|] eqn:S; cbn [bind]; [|discriminate]. intros [= <-]. cbn [snd].
  rewrite (replace_cmd _ _ _ _ S). cbn [v_cmd with_acc with_ops]. now rewrite (remove_cmd _ _ R).
Qed.

(** For the parallelizers of the annotations, recognition is exact: the aggregator of an invocation is
    recognised iff it is a cat. *)
Theorem C87_annotated : forall dir inv l b p orig ins out k c,
  annotated dir inv (Some (l, b)) -> In p l -> v_cmd orig = cmd_name inv ->
  get_aggregator dir (p_aggregator p) orig ins out = Ok (Some (k, c)) ->
  (is_aggregator_concatenate (Aggregates (k, c)) = true <-> v_cmd c = "cat").
Proof.
  intros dir inv l b p orig ins out k c A I O G. destruct (C29_annotated _ _ _ _ _ A I) as (W & _ & H).
  split; [intros R; now apply (C87_recognised _ _ _ _ _ _ _ W G R)|]. intros N.
  assert (J : agg_is_implemented (p_aggregator p) = true).
  { destruct (agg_is_implemented (p_aggregator p)) eqn:J; [reflexivity|]. unfold get_aggregator in G. rewrite J in G. discriminate G. }
  rewrite (C87_specification _ _ _ _ _ _ G). destruct (H J) as [E|[E|(s & Is & E)]].
  - now rewrite E.
  - exfalso. rewrite E in G. cbn in G. apply transformer_cmd in G. cbn [snd] in G.
    rewrite N, O in G. symmetry in G. inversion A; subst; cbn in I;
      repeat match goal with X : In _ _ |- _ => cbn in X | X : _ \/ _ |- _ => destruct X | X : False |- _ => destruct X end;
      subst; try congruence; try (cbn in E; discriminate E).
  - exfalso. rewrite E in G. cbn [get_aggregator agg_is_implemented negb] in G. unfold get_aggregator_string in G.
    destruct (parse dir s) as [x|] eqn:P; cbn [bind] in G; [|discriminate]. destruct (only_flags _); cbn [bind] in G; [|discriminate].
    destruct (Nat.eqb _ _); cbn [assert_ bind] in G; [|discriminate]. injection G as <- <-. cbn [v_cmd] in N.
    assert (F : shlex_split s = Ok [s]) by (cbn in Is; destruct Is as [<-|[<-|[]]]; vm_compute; reflexivity).
    unfold parse in P. rewrite F in P. cbn [bind] in P. destruct (get_json_data dir s); cbn [bind] in P; [|discriminate].
    destruct (parse_words _ _). injection P as <-. cbn [cmd_name] in N. subst s. cbn in Is. destruct Is as [F'|[F'|[]]]; discriminate.
Qed.
Print Assumptions C87_annotated.

(** The same command held as an invocation is not recognised, nor is a mapper that runs cat. *)
Theorem C87_invocation_refuted : forall dir orig ins out,
  exists c, get_aggregator dir make_aggregator_spec_concatenate orig ins out = Ok (Some (CONCATENATE, c)) /\
    c = make_cat ins out /\
    is_aggregator_concatenate (Aggregates (CONCATENATE, c)) = true /\ is_aggregator_concatenate (Invocation (make_cat ins out)) = false.
Proof. intros. eexists. now repeat split. Qed.
Print Assumptions C87_invocation_refuted.

(** ** Exactly one predicate holds of a specification. *)
Definition asks : list (agg_spec -> bool) :=
  [is_aggregator_spec_concatenate; is_aggregator_spec_adj_lines_merge; is_aggregator_spec_adj_lines_seq;
   is_aggregator_spec_adj_lines_func; is_aggregator_spec_custom_2_ary; is_aggregator_spec_custom_n_ary].
Theorem C87_one_kind : forall a, exists n, (n < 6)%nat /\ forall i, (i < 6)%nat ->
  (nth i asks (fun _ => false) a = true <-> i = n).
Proof.
  intros a. destruct (agg_kind_of a) eqn:K; [exists 0%nat|exists 1%nat|exists 2%nat|exists 3%nat|exists 4%nat|exists 5%nat];
    (split; [lia|]); intros i L; do 6 (destruct i as [|i]; [cbn; unfold is_aggregator_spec_concatenate, is_aggregator_spec_adj_lines_merge,
      is_aggregator_spec_adj_lines_seq, is_aggregator_spec_adj_lines_func, is_aggregator_spec_custom_2_ary, is_aggregator_spec_custom_n_ary;
      rewrite K; split; congruence|]); lia.
Qed.
Print Assumptions C87_one_kind.
(** Each constructor of splitters gives the splitter its predicate recognises and no other; the one for
    individual files is recognised by none. *)
Theorem C87_splitters : forall s,
  (is_splitter_round_robin s = true <-> s = make_splitter_round_robin) /\
  (is_splitter_round_robin_with_unwrap_flag s = true <-> s = make_splitter_round_robin_with_unwrap) /\
  (is_splitter_consec_chunks s = true <-> s = make_splitter_consec_chunks) /\
  (s = make_splitter_indiv_files <->
   is_splitter_round_robin s = false /\ is_splitter_round_robin_with_unwrap_flag s = false /\ is_splitter_consec_chunks s = false) /\
  NoDup [make_splitter_indiv_files; make_splitter_round_robin; make_splitter_round_robin_with_unwrap; make_splitter_consec_chunks].
Proof.
  intros s. unfold make_splitter_indiv_files, make_splitter_round_robin, make_splitter_round_robin_with_unwrap, make_splitter_consec_chunks.
  repeat (split; [destruct s; cbn; intuition congruence|]).
  repeat constructor; cbn; intros H; repeat (destruct H as [H|H]; [discriminate H|]); exact H.
Qed.
Print Assumptions C87_splitters.
(** The kinds that the constructor of parallelizers accepts with the plain round robin splitter *)
Theorem C87_round_robin : forall m a i n,
  (exists p, new_parallelizer make_splitter_round_robin m a i n = Ok p) <->
  is_aggregator_spec_custom_2_ary a = false /\ is_aggregator_spec_custom_n_ary a = false.
Proof.
  intros m a i n. unfold new_parallelizer, round_robin_aggregator, is_aggregator_spec_custom_2_ary, is_aggregator_spec_custom_n_ary.
  cbn [make_splitter_round_robin is_splitter_round_robin negb orb]. destruct (agg_kind_of a); cbn [assert_ bind];
    (split; [intros (p & E); try discriminate E; auto|intros [E F]; try discriminate; eauto]).
Qed.
Print Assumptions C87_round_robin.
Example C87_case :
  (exists c, get_aggregator shipped_dir sort_merge sort_example [5; 6] 7 = Ok (Some (CUSTOM_2_ARY, c)) /\
     is_aggregator_concatenate (Aggregates (CUSTOM_2_ARY, c)) = false /\ v_cmd c = "sort") /\
  (exists c, get_aggregator shipped_dir concat sort_example [5; 6; 8] 7 = Ok (Some (CONCATENATE, c)) /\
     is_aggregator_concatenate (Aggregates (CONCATENATE, c)) = true /\ v_cmd c = "cat") /\
  (exists c, get_actual_2_ary_aggregator_with_aux shipped_dir (AggString CUSTOM_2_ARY "bigram_aux_reduce" true) 1 [2; 3] 4 [5; 6] 7 [8; 9]
     = Ok (CUSTOM_2_ARY, c) /\ is_aggregator_concatenate (Aggregates (CUSTOM_2_ARY, c)) = false).
Proof. repeat split; eexists; (split; [vm_compute; reflexivity|]); repeat split. Qed.
