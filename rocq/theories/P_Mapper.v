(** * Theorems about mappers and aggregators (C29, C31, C43-C47) *)
Require Import Verif.PyBase Verif.JsonData Verif.Parser Verif.ShippedData Verif.Access Verif.IOInfo Verif.IOGen Verif.IOVars
  Verif.Transformers Verif.ParaTypes Verif.MapperAgg Verif.SpecParser Verif.SpecIO Verif.SpecPara Verif.SpecVars Verif.SpecMapper
  Verif.ParaProps Verif.IOVarsFacts Verif.IOVarsProps Verif.P_Para Verif.P_IOVars Verif.MapperFacts.
From Coq Require Import Lia.
Local Open Scope Z_scope.

(** An invocation used in the examples: sort -n -k 2, from variable 1 to variable 2. *)
Definition sort_example : civ :=
  mkCiv "sort" [FFlag "-n"; FOptIO "-k" (PArg "2")] [] (PVar 1) (PVar 2)
    (am_set (am_set am_empty 1 STREAM_INPUT) 2 STREAM_OUTPUT).
Lemma sort_example_consistent : consistent sort_example.
Proof. split; [repeat constructor; cbn; lia|]. intros v [<-|[<-|[]]]; discriminate. Qed.

(** ** C29: implemented and obtainable *)
Theorem C29_never_none : forall p dir orig i o aux ins out,
  well_kinded (p_aggregator p) -> length aux = p_info_mapper_aggregator p ->
  (are_all_parts_implemented p = true <->
   get_actual_mapper p orig i o aux <> Ok None /\ get_aggregator dir (p_aggregator p) orig ins out <> Ok None).
Proof.
  intros p dir orig i o aux ins out W L. unfold are_all_parts_implemented, get_actual_mapper, get_aggregator.
  rewrite L, Nat.eqb_refl. cbn [assert_ bind]. unfold get_mapper.
  rewrite andb_true_iff. destruct (ms_is_implemented (p_mapper p)); cbn [negb]; [|intuition congruence].
  destruct (agg_is_implemented (p_aggregator p)) eqn:A; cbn [negb]; [|intuition congruence].
  split; [intros _|auto]. split.
  - destruct aux.
    + destruct (substitute_inputs_and_outputs _ _ _) as [c []]; discriminate.
    + destruct (pop_operands _ _); discriminate.
  - destruct (p_aggregator p) as [k b|k t b|k s b]; cbn in W.
    + destruct W as [->|[->| ->]]; cbn; try discriminate; destruct (Nat.eqb _ _); discriminate.
    + unfold get_aggregator_transformer. destruct (arity_check k ins); cbn [bind]; [|discriminate]. cbv zeta.
      destruct (finished (remove_streaming_inputs _)); cbn [bind]; [|discriminate].
      destruct (register_inputs _ _); cbn [bind]; [|discriminate].
      destruct (finished (replace_var _ _ _)); discriminate.
    + unfold get_aggregator_string. destruct (parse dir s); cbn [bind]; [|discriminate].
      destruct (only_flags _); cbn [bind]; [|discriminate]. cbv zeta. destruct k; cbn; try discriminate; destruct (Nat.eqb _ _); discriminate.
Qed.
Print Assumptions C29_never_none.
Example C29_never_none_case : well_kinded (p_aggregator (chunks concat)) /\ length ([] : list Z) = p_info_mapper_aggregator (chunks concat) /\
  get_actual_mapper (chunks concat) sort_example 5 6 [] <> Ok None /\
  get_aggregator shipped_dir (p_aggregator (chunks concat)) sort_example [7; 8] 9 <> Ok None.
Proof. split; [now left|]. split; [reflexivity|]. apply (C29_never_none (chunks concat) shipped_dir sort_example 5 6 [] [7; 8] 9); [now left|reflexivity|reflexivity]. Qed.
(** Refuted: implemented parts that can never be obtained *)
Theorem C29_obtainable_refuted : forall dir orig ins out s,
  (exists e, get_aggregator dir (make_aggregator_spec_from_string ADJ_LINES_FUNC s true) orig ins out = Raise e) /\
  (exists e, get_aggregator dir (AggNonFunc ADJ_LINES_MERGE true) orig ins out = Raise e) /\
  (exists e, get_aggregator dir (AggNonFunc ADJ_LINES_SEQ true) orig ins out = Raise e) /\
  get_aggregator dir (AggNonFunc CUSTOM_N_ARY true) orig ins out = Ok None.
Proof.
  intros dir orig ins out s. cbn [get_aggregator agg_is_implemented negb make_aggregator_spec_from_string].
  split; [|split; [|split; [|reflexivity]]].
  - unfold get_aggregator_string. destruct (parse dir s) as [inv|e]; cbn [bind]; [|eauto].
    destruct (only_flags _); cbn [bind]; [|eauto]. cbv zeta. destruct (Nat.eqb _ 1); cbn; eauto.
  - cbn. destruct (Nat.eqb _ _); cbn; eauto.
  - cbn. destruct (Nat.eqb _ _); cbn; eauto.
Qed.
Print Assumptions C29_obtainable_refuted.
(** The generators only produce the following implemented parts, all obtainable: by
    concatenation always; for the others see C31_actual_aggregator and C47. *)
Theorem C29_annotated : forall dir inv l b p, annotated dir inv (Some (l, b)) -> In p l ->
  well_kinded (p_aggregator p) /\ ms_is_implemented (p_mapper p) = true /\
  (agg_is_implemented (p_aggregator p) = true ->
   p_aggregator p = concat \/ p_aggregator p = sort_merge \/
   exists s, In s ["alt_bigram_aux_reduce"; "bigram_aux_reduce"] /\ p_aggregator p = AggString CUSTOM_2_ARY s true).
Proof.
  intros dir inv l b p A I.
  inversion A; subst; cbn in I;
    repeat match goal with H : _ \/ _ |- _ => destruct H | H : False |- _ => destruct H end; subst; cbn;
    (split; [auto; tauto|split; [reflexivity|]]); intros E; try discriminate E; auto;
    right; right; eexists; (split; [|reflexivity]); auto.
Qed.
Print Assumptions C29_annotated.
Example C29_annotated_case : annotated shipped_dir (mkInv "sort" [Flag "-n"] []) (Some ([chunks sort_merge], true)) /\ well_kinded sort_merge.
Proof.
  assert (A : annotated shipped_dir (mkInv "sort" [Flag "-n"] []) (Some ([chunks sort_merge], true))) by (apply C25_exact; vm_compute; reflexivity).
  split; [exact A|]. exact (proj1 (C29_annotated _ _ _ _ _ A (or_introl eq_refl))).
Qed.
Theorem C29_concat_obtainable : forall dir orig ins out, exists c,
  get_aggregator dir concat orig ins out = Ok (Some (CONCATENATE, c)).
Proof. intros. eexists. reflexivity. Qed.
Print Assumptions C29_concat_obtainable.
Example C29_case : are_all_parts_implemented (chunks concat) = true /\ are_all_parts_implemented (chunks adj_seq) = false /\
  get_aggregator shipped_dir adj_seq sort_example [7] 8 = Ok None.
Proof. repeat split. Qed.

(** ** C43: mappers without auxiliary outputs *)
Theorem C43_none_iff : forall p orig i o aux,
  get_actual_mapper p orig i o aux = Ok None <->
  length aux = p_info_mapper_aggregator p /\ ms_is_implemented (p_mapper p) = false.
Proof.
  intros p orig i o aux. unfold get_actual_mapper, get_mapper.
  destruct (Nat.eqb_spec (length aux) (p_info_mapper_aggregator p)) as [L|L]; cbn [assert_ bind]; [|intuition congruence].
  destruct (ms_is_implemented (p_mapper p)); cbn [negb]; [|intuition congruence].
  split; [|intuition congruence]. destruct aux.
  - destruct (substitute_inputs_and_outputs _ _ _) as [c []]; discriminate.
  - destruct (pop_operands _ _); discriminate.
Qed.
Print Assumptions C43_none_iff.
Example C43_none_case : get_actual_mapper (chunks concat) sort_example 5 6 [7] <> Ok None /\
  get_actual_mapper (chunks concat) sort_example 5 6 [7] = Raise AssertionError.
Proof. split; [discriminate|reflexivity]. Qed.
Theorem C43_mapper : forall s orig base i o i' o',
  ms_is_implemented s = true -> mapper_base s orig base -> consistent base ->
  kept (with_access base STREAM_INPUT) (vars base) [i] -> kept (with_access base STREAM_OUTPUT) (vars base) [o] ->
  fresh_for base [i'; o'] ->
  exists c, get_mapper s orig i' o' [] = Ok (Some c) /\ skeleton c = skeleton base /\
    vars c = map (renamed i i' o o') (vars base) /\
    v_acc c i' = Some STREAM_INPUT /\ v_acc c o' = Some STREAM_OUTPUT /\ v_acc c i = None /\ v_acc c o = None /\
    (forall v, ~ In v [i; o; i'; o'] -> v_acc c v = v_acc base v).
Proof.
  intros s orig base i o i' o' M B C KI KO F. apply base_mapper_spec in B as ->.
  destruct (mapper_both _ i o i' o' C KI KO F) as (c & R & X). exists c. split; [|exact X].
  unfold get_mapper. rewrite M. cbn [negb]. cbv zeta. rewrite R. reflexivity.
Qed.
Print Assumptions C43_mapper.
Example C43_mapper_case : exists c, get_mapper seq_mapper sort_example 7 8 [] = Ok (Some c) /\ skeleton c = skeleton sort_example /\ vars c = [7; 8].
Proof.
  destruct (C43_mapper seq_mapper sort_example sort_example 1 2 7 8 eq_refl) as (c & G & S & V & _).
  - now constructor.
  - exact sort_example_consistent.
  - exact (old_kept STREAM_INPUT sort_example).
  - exact (old_kept STREAM_OUTPUT sort_example).
  - split; [repeat constructor; cbn; lia|]. intros w [<-|[<-|[]]]; cbn; lia.
  - exists c. split; [exact G|]. split; [exact S|exact V].
Qed.
(** It is obtained only for commands with one streaming input and one streaming output. *)
Theorem C43_one_each : forall s orig base i' o',
  ms_is_implemented s = true -> mapper_base s orig base -> consistent base -> fresh_for base [i'; o'] ->
  (exists c, get_mapper s orig i' o' [] = Ok (Some c)) /\
    (exists i o, kept (with_access base STREAM_INPUT) (vars base) [i] /\ kept (with_access base STREAM_OUTPUT) (vars base) [o]) \/
  (exists e, get_mapper s orig i' o' [] = Raise e /\ (e = IndexError \/ e = AssertionError)) /\
    ~ (exists i o, kept (with_access base STREAM_INPUT) (vars base) [i] /\ kept (with_access base STREAM_OUTPUT) (vars base) [o]).
Proof.
  intros s orig base i' o' M B C F.
  destruct (list_eq_dec Z.eq_dec (old_of STREAM_INPUT base) []) as [E1|E1].
  1: right.
  2: destruct (old_of STREAM_INPUT base) as [|i [|i2 l]] eqn:O1; [congruence| |right].
  2: destruct (old_of STREAM_OUTPUT base) as [|o [|o2 l]] eqn:O2; [right|left|right].
  3: { assert (KI : kept (with_access base STREAM_INPUT) (vars base) [i]) by (rewrite <- O1; apply old_kept).
       assert (KO : kept (with_access base STREAM_OUTPUT) (vars base) [o]) by (rewrite <- O2; apply old_kept).
       destruct (C43_mapper s orig base i o i' o' M B C KI KO F) as (c & R & _). split; eauto. }
  all: assert (NE : ~ exists i o, kept (with_access base STREAM_INPUT) (vars base) [i] /\ kept (with_access base STREAM_OUTPUT) (vars base) [o])
    by (intros (x & y & K1 & K2); apply old_eq in K1, K2; congruence).
  all: split; [|exact NE]; apply base_mapper_spec in B; subst base; unfold get_mapper; rewrite M; cbn [negb]; cbv zeta;
    set (base := base_mapper s orig) in *.
  all: assert (FI : fresh_for base [i']) by
    (destruct F as [N D]; split; [repeat constructor; intros []|]; intros w [<-|[]]; apply D; now left).
  all: unfold substitute_inputs_and_outputs, substitute_inputs_in_cmd_invocation, substitute_outputs_in_cmd_invocation;
    change (substitute is_stream_input (base, [i'])) with (subst_of STREAM_INPUT (base, [i']));
    destruct (subst_outcome STREAM_INPUT base [i'] C FI) as [(c1 & R1 & L & C1 & S1 & F1 & M1)|(c1 & l1 & e & R1 & E & L)];
    rewrite R1; try (cbn; eauto; fail); try (exfalso; rewrite ?E1, ?O1 in L; cbn in L; discriminate).
  all: change (substitute is_stream_output (c1, [o'])) with (subst_of STREAM_OUTPUT (c1, [o'])).
  all: assert (FO : fresh_for c1 [o']) by
    (destruct F as [N D]; split; [repeat constructor; intros []|]; intros w [<-|[]] J;
     rewrite (filled_in _ _ _ _ F1) in J; destruct J as [[->|[]]|[J _]];
     [apply NoDup_cons_iff in N as [N _]; apply N; now left|apply (D o'); [right; now left|exact J]]).
  all: destruct (subst_outcome STREAM_OUTPUT c1 [o'] C1 FO) as [(c2 & R2 & L2 & _)|(c2 & l2 & e & R2 & E & _)];
    rewrite R2; try (cbn; eauto; fail).
  all: exfalso; apply NE; exists i.
  all: destruct (old_of STREAM_OUTPUT c1) as [|o9 [|? ?]] eqn:O3; try discriminate L2; exists o9; split; [rewrite <- O1; apply old_kept|].
  all: assert (EO : old_of STREAM_OUTPUT base = old_of STREAM_OUTPUT c1);
    [|rewrite <- O3, <- EO; apply old_kept].
  all: assert (KI : kept (with_access base STREAM_INPUT) (vars base) [i]) by (rewrite <- O1; apply old_kept).
  all: symmetry; eapply kept_fun; [apply old_kept|]; apply (outputs_survive base c1 [i] [i']); auto; try (rewrite <- O1; auto; fail); apply old_kept.
Qed.
Print Assumptions C43_one_each.
Example C43_two_outputs_case : let c := mkCiv "tee" [] [PVar 3] (PVar 1) (PVar 2) (am_of [2; 3] STREAM_OUTPUT (am_set am_empty 1 STREAM_INPUT)) in
  consistent c /\ get_mapper seq_mapper c 7 8 [] = Raise IndexError.
Proof.
  intros c. split; [|vm_compute; reflexivity]. split; [repeat constructor; cbn; lia|]. intros v I. cbn in I. destruct I as [<-|[<-|[<-|[]]]]; discriminate.
Qed.
Example C43_case : exists c, mapper_base seq_mapper sort_example sort_example /\ get_mapper seq_mapper sort_example 7 8 [] = Ok (Some c) /\
  v_flags c = v_flags sort_example /\ v_in c = PVar 7 /\ v_out c = PVar 8.
Proof. eexists. split; [now constructor|]. split; [vm_compute; reflexivity|]. repeat split. Qed.

(** ** C44: mappers with auxiliary outputs *)
Theorem C44_mapper : forall s orig base olds i' o' aux,
  ms_is_implemented s = true -> mapper_base s orig base -> aux <> [] ->
  v_ops base = map PVar olds -> NoDup olds -> (forall v, In v olds -> v_acc base v <> None) ->
  exists c, get_mapper s orig i' o' aux = Ok (Some c) /\
    v_cmd c = v_cmd base /\ v_flags c = v_flags base /\ v_ops c = map PVar (i' :: o' :: aux) /\
    v_in c = PNone /\ v_out c = PNone /\
    (forall v, In v (o' :: aux) -> v_acc c v = Some STREAM_OUTPUT) /\
    (forall v, ~ In v (o' :: aux) -> v = i' -> v_acc c v = Some STREAM_INPUT) /\
    (forall v, ~ In v (i' :: o' :: aux) -> In v olds -> v_acc c v = None) /\
    (forall v, ~ In v (i' :: o' :: aux) -> ~ In v olds -> v_acc c v = v_acc orig v).
Proof.
  intros s orig base olds i' o' aux M B NE O N A.
  assert (EA : v_acc base = v_acc orig) by (destruct B; [reflexivity|assumption]).
  apply base_mapper_spec in B as ->. unfold get_mapper. rewrite M. cbn [negb]. cbv zeta. rewrite O.
  destruct (pop_operands_ok olds _ N A) as (m & R & P & Q). rewrite R. cbn [bind].
  destruct aux as [|x aux]; [congruence|]. eexists. split; [reflexivity|]. cbn [v_cmd v_flags v_ops v_in v_out v_acc].
  repeat split; auto.
  - intros v [<-|I]; [|now apply am_of_in]. destruct (in_dec Z.eq_dec o' (x :: aux)) as [I|I].
    + now apply am_of_in.
    + rewrite am_of_out by exact I. apply am_set_eq.
  - intros v I ->. rewrite am_of_out by (intros J; apply I; now right).
    rewrite am_set_ne by (intros ->; apply I; now left). apply am_set_eq.
  - intros v I J. rewrite am_of_out by (intros K; apply I; right; now right).
    rewrite !am_set_ne by (intros ->; apply I; cbn; auto). now apply P.
  - intros v I J. rewrite am_of_out by (intros K; apply I; right; now right).
    rewrite !am_set_ne by (intros ->; apply I; cbn; auto). rewrite Q by exact J. now rewrite EA.
Qed.
Print Assumptions C44_mapper.
Example C44_mapper_case : let c := mkCiv "bigrams_aux" [] [PVar 1; PVar 3] PNone (PVar 2) (am_set (am_of [1; 3] STREAM_INPUT am_empty) 2 STREAM_OUTPUT) in
  exists m, get_mapper seq_mapper c 5 6 [7; 8] = Ok (Some m) /\ v_ops m = map PVar [5; 6; 7; 8] /\ v_acc m 1 = None /\ v_acc m 3 = None.
Proof.
  intros c. destruct (C44_mapper seq_mapper c c [1; 3] 5 6 [7; 8] eq_refl) as (m & G & _ & _ & O & _ & _ & _ & _ & L & _).
  - now constructor.
  - discriminate.
  - reflexivity.
  - repeat constructor; cbn; lia.
  - intros v [<-|[<-|[]]]; discriminate.
  - exists m. split; [exact G|]. split; [exact O|]. split; apply L; cbn; lia.
Qed.
Theorem C44_rejects : forall s orig base i' o' aux,
  ms_is_implemented s = true -> mapper_base s orig base -> aux <> [] ->
  ((exists c, get_mapper s orig i' o' aux = Ok (Some c)) <->
   exists olds, v_ops base = map PVar olds /\ NoDup olds /\ forall v, In v olds -> v_acc base v <> None) /\
  (forall e, get_mapper s orig i' o' aux = Raise e -> e = KeyError \/ e = AssertionError).
Proof.
  intros s orig base i' o' aux M B NE. split; [split|].
  - intros [c R]. apply base_mapper_spec in B as ->. unfold get_mapper in R. rewrite M in R. cbn [negb] in R. cbv zeta in R.
    destruct aux; [congruence|]. destruct (pop_operands _ _) as [m|e] eqn:P; [|discriminate]. now apply pop_operands_inv in P.
  - intros (olds & O & N & A). destruct (C44_mapper s orig base olds i' o' aux M B NE O N A) as (c & R & _). eauto.
  - intros e R. apply base_mapper_spec in B as ->. unfold get_mapper in R. rewrite M in R. cbn [negb] in R. cbv zeta in R.
    destruct aux; [congruence|]. destruct (pop_operands _ _) as [m|e'] eqn:P; [discriminate|]. injection R as <-.
    now apply pop_operands_raises in P.
Qed.
Print Assumptions C44_rejects.
Example C44_rejects_case : get_mapper seq_mapper (mkCiv "x" [] [PArg "a"] (PVar 1) (PVar 2) (am_set (am_set am_empty 1 STREAM_INPUT) 2 STREAM_OUTPUT)) 5 6 [7] = Raise AssertionError.
Proof. vm_compute. reflexivity. Qed.
(** What is not dropped: accesses of the former implicit input and output *)
Definition bigrams_example : civ :=
  mkCiv "bigrams_aux" [] [] (PVar 1) (PVar 2) (am_set (am_set am_empty 1 STREAM_INPUT) 2 STREAM_OUTPUT).
Theorem C44_leftovers_refuted : exists s orig c,
  tight orig /\ get_mapper s orig 5 6 [7; 8] = Ok (Some c) /\ v_acc c 1 = Some STREAM_INPUT /\ ~ In 1 (vars c).
Proof.
  exists (custom_mapper "bigram_aux_map" []), bigrams_example. eexists. split.
  - split; [split|].
    + repeat constructor; cbn; lia.
    + intros v [<-|[<-|[]]]; discriminate.
    + intros v. cbn. unfold am_set, am_empty. destruct (Z.eqb_spec v 2), (Z.eqb_spec v 1); subst; auto; congruence.
  - split; [vm_compute; reflexivity|]. split; [reflexivity|]. cbn. lia.
Qed.
Print Assumptions C44_leftovers_refuted.
Example C44_case : exists c, get_mapper (custom_mapper "bigram_aux_map" []) bigrams_example 5 6 [7; 8] = Ok (Some c) /\
  v_cmd c = "bigram_aux_map" /\ v_ops c = [PVar 5; PVar 6; PVar 7; PVar 8] /\ consistent c.
Proof.
  eexists. split; [vm_compute; reflexivity|]. repeat split.
  - repeat constructor; cbn; lia.
  - intros v [<-|[<-|[<-|[<-|[]]]]]; discriminate.
Qed.

(** ** C45: concatenation *)
Theorem C45_cat : forall dir orig ins out, exists c,
  get_aggregator dir concat orig ins out = Ok (Some (CONCATENATE, c)) /\
  v_cmd c = "cat" /\ v_flags c = [] /\ v_ops c = map PVar ins /\ v_in c = PNone /\ v_out c = PVar out /\
  v_acc c out = Some STREAM_OUTPUT /\
  (forall v, v <> out -> In v ins -> v_acc c v = Some STREAM_INPUT) /\
  (forall v, v <> out -> ~ In v ins -> v_acc c v = None) /\
  (tight c <-> NoDup (ins ++ [out])).
Proof.
  intros dir orig ins out. eexists. split; [reflexivity|]. cbn [v_cmd v_flags v_ops v_in v_out v_acc make_cat].
  assert (D : forall v, v <> out -> ~ In v ins -> v_acc (make_cat ins out) v = None).
  { intros v NE I. cbn. rewrite am_set_ne by exact NE. now rewrite am_of_out. }
  assert (P : forall v, v <> out -> In v ins -> v_acc (make_cat ins out) v = Some STREAM_INPUT).
  { intros v NE I. cbn. rewrite am_set_ne by exact NE. now apply am_of_in. }
  assert (E : v_acc (make_cat ins out) out = Some STREAM_OUTPUT) by apply am_set_eq.
  assert (V : vars (make_cat ins out) = ins ++ [out]).
  { rewrite (vars_eq (make_cat ins out)). cbn. f_equal. induction ins as [|x l IH]; [reflexivity|]. cbn. f_equal. apply IH; intros; [apply am_set_ne || idtac|idtac|idtac].
    all: clear D P E. all: try (cbn; rewrite am_set_ne by assumption; now rewrite am_of_out).
    all: try (cbn; rewrite am_set_ne by assumption; now apply am_of_in). apply am_set_eq. }
  repeat split; auto.
  - intros [[N _] _]. now rewrite V in N.
  - rewrite V. auto.
  - intros v I. destruct (Z.eq_dec v out) as [->|NE]; [rewrite E; discriminate|]. rewrite V in I.
    rewrite P; [discriminate|exact NE|]. apply in_app_or in I as [I|[I|[]]]; congruence.
  - intros v A. rewrite V. apply in_or_app. destruct (Z.eq_dec v out) as [->|NE]; [right; now left|].
    destruct (in_dec Z.eq_dec v ins) as [I|I]; [now left|]. elim A. now apply D.
Qed.
Print Assumptions C45_cat.
Example C45_case : exists c, get_aggregator shipped_dir concat sort_example [5; 6; 7] 8 = Ok (Some (CONCATENATE, c)) /\ tight c.
Proof.
  destruct (C45_cat shipped_dir sort_example [5; 6; 7] 8) as (c & R & _ & _ & _ & _ & _ & _ & _ & _ & T). exists c. split; [exact R|].
  apply T. repeat constructor; cbn; lia.
Qed.

(** ** C46: aggregators by flag transformation *)
Theorem C46_aggregator : forall dir k t orig ins o a out,
  let base := with_flags (transform t (v_flags orig)) orig in
  takes k (length ins) -> consistent base ->
  (forall x, In x (option_args (v_flags base)) -> ~ has base STREAM_INPUT x) ->
  NoDup ins -> (forall v, In v ins -> v_acc orig v = None \/ streaming_input base v) ->
  v_out orig = PVar o -> v_acc orig o = Some a -> a <> STREAM_INPUT ->
  exists c, get_aggregator dir (AggTransformer k t true) orig ins out = Ok (Some (k, c)) /\
    v_cmd c = v_cmd orig /\ v_flags c = transform t (v_flags orig) /\ v_ops c = map PVar ins /\
    emptied base STREAM_INPUT (v_in orig) (v_in c) /\ v_out c = PVar out /\
    v_acc c out = Some a /\
    (forall v, v <> out -> In v ins -> v_acc c v = Some STREAM_INPUT) /\
    (forall v, v <> out -> ~ In v ins -> v = o \/ streaming_input base v -> v_acc c v = None) /\
    (forall v, v <> out -> v <> o -> ~ In v ins -> ~ streaming_input base v -> v_acc c v = v_acc orig v).
Proof.
  intros dir k t orig ins o a out base T C H N I O A NA.
  destruct (agg_transformer_ok k t orig ins o a out T C H N I O A NA) as (c & R & P1 & P2 & P3 & P4 & P5 & P6 & P7 & P8 & P9 & P10).
  exists c. split; [exact R|]. repeat split; auto.
  - intros v NE J. destruct (Z.eq_dec v o) as [->|NO]; [|now apply P8].
    exfalso. destruct (I o J) as [E|[_ E]]; [congruence|]. change (v_acc base o) with (v_acc orig o) in E. congruence.
  - intros v NE J [->|S]; [now apply P7|]. destruct (Z.eq_dec v o) as [->|NO]; [now apply P7|now apply P9].
Qed.
Print Assumptions C46_aggregator.
Example C46_aggregator_case : takes CUSTOM_2_ARY (length [5; 6]) /\ NoDup [5; 6] /\ (forall v, In v [5; 6] -> v_acc sort_example v = None) /\
  v_out sort_example = PVar 2 /\ v_acc sort_example 2 = Some STREAM_OUTPUT /\
  (forall x, In x (option_args (v_flags sort_example)) -> ~ has sort_example STREAM_INPUT x).
Proof.
  split; [split; [discriminate|reflexivity]|]. split; [repeat constructor; cbn; lia|]. split; [now intros v [<-|[<-|[]]]|]. repeat split.
  intros x [<-|[]] (v & E & _). discriminate E.
Qed.
(** Inputs that are already known, or given twice, are rejected. *)
Theorem C46_rejects : forall dir k t orig ins out,
  let base := with_flags (transform t (v_flags orig)) orig in
  consistent base -> (forall x, In x (option_args (v_flags base)) -> ~ has base STREAM_INPUT x) ->
  (~ NoDup ins \/ exists v, In v ins /\ v_acc orig v <> None /\ ~ streaming_input base v) \/ ~ takes k (length ins) ->
  get_aggregator dir (AggTransformer k t true) orig ins out = Raise AssertionError.
Proof.
  intros dir k t orig ins out base C H B. cbn [get_aggregator agg_is_implemented negb]. unfold get_aggregator_transformer.
  assert (AC : arity_check k ins = Ok tt \/ arity_check k ins = Raise AssertionError).
  { unfold arity_check. destruct k; auto; destruct (Nat.eqb _ _); auto. }
  destruct AC as [AC|AC]; rewrite AC; cbn [bind]; [|reflexivity]. cbv zeta. fold base.
  assert (T : takes k (length ins)).
  { split; intros ->; cbn in AC; destruct (Nat.eqb_spec (length ins) 1), (Nat.eqb_spec (length ins) 2); cbn in AC; congruence. }
  destruct B as [B|B]; [|contradiction].
  destruct (agg_prepare orig (transform t (v_flags orig)) C H) as (c1 & R1 & P1 & P2 & P3 & P4 & P5 & P6). fold base in R1, P5, P6.
  rewrite R1. cbn [finished bind v_acc with_ops]. destruct (register_inputs ins (v_acc c1)) as [m|e] eqn:R.
  - exfalso. apply register_inv in R as [N A]. destruct B as [B|(v & J & V & S)]; [contradiction|]. apply A in J. rewrite P6 in J; congruence.
  - apply register_raises in R as ->. reflexivity.
Qed.
Print Assumptions C46_rejects.
Example C46_rejects_case : get_aggregator shipped_dir sort_merge sort_example [5; 5] 7 = Raise AssertionError /\
  get_aggregator shipped_dir sort_merge sort_example [5; 2] 7 = Raise AssertionError /\
  get_aggregator shipped_dir sort_merge sort_example [5; 6; 8] 7 = Raise AssertionError.
Proof. repeat split; vm_compute; reflexivity. Qed.
(** Refuted: "writes to the given output".  Without an implicit output the given output is
    ignored ... *)
Theorem C46_output_ignored_refuted : forall dir k t orig ins out out', v_out orig = PNone ->
  get_aggregator dir (AggTransformer k t true) orig ins out = get_aggregator dir (AggTransformer k t true) orig ins out'.
Proof.
  intros dir k t orig ins out out' O. cbn [get_aggregator agg_is_implemented negb]. unfold get_aggregator_transformer.
  destruct (arity_check k ins); cbn [bind]; [|reflexivity]. cbv zeta.
  pose proof (remove_keeps_no_output (with_flags (transform t (v_flags orig)) orig) O) as E.
  destruct (remove_streaming_inputs _) as [c1 [[]|e]]; cbn [finished bind]; [|reflexivity]. cbn [fst] in E.
  destruct (register_inputs _ _) as [m|e]; cbn [bind]; [|reflexivity].
  cbn [v_out with_acc with_ops]. rewrite E by reflexivity. now rewrite !replace_none.
Qed.
Print Assumptions C46_output_ignored_refuted.
(** ... as for sort -o, which is annotated as parallelizable and has no implicit output. *)
Theorem C46_sort_o_refuted : exists inv i c,
  parse shipped_dir "sort -o out in" = Ok inv /\
  get_input_output_info shipped_dir inv = Some i /\ implicit_output i = None /\
  annotated shipped_dir inv (Some ([chunks sort_merge], true)) /\
  get_aggregator shipped_dir sort_merge
    (mkCiv "sort" [FOptIO "-o" (PVar 2)] [PVar 1] PNone PNone
       (am_set (am_set am_empty 1 STREAM_INPUT) 2 OTHER_OUTPUT)) [5; 6] 7 = Ok (Some (CUSTOM_2_ARY, c)) /\
  vars c = [5; 6] /\ v_acc c 7 = None.
Proof.
  do 3 eexists. split; [vm_compute; reflexivity|]. split; [vm_compute; reflexivity|]. split; [reflexivity|]. split.
  - apply an_sort; [now left|]. intros (n & I & fo & [<-|[]] & U). cbn in U, I. subst n.
    repeat destruct I as [I|I]; discriminate I || exact I.
  - split; [vm_compute; reflexivity|]. split; reflexivity.
Qed.
Print Assumptions C46_sort_o_refuted.
(** The accesses of dropped operands are kept, so that the result is not [tight]. *)
Theorem C46_leftovers_refuted : exists orig c,
  tight orig /\ get_aggregator shipped_dir sort_merge orig [5; 6] 7 = Ok (Some (CUSTOM_2_ARY, c)) /\
  v_acc c 3 = Some CONFIG_INPUT /\ ~ In 3 (vars c).
Proof.
  exists (mkCiv "sort" [] [PVar 3] (PVar 1) (PVar 2)
       (am_set (am_set (am_set am_empty 1 STREAM_INPUT) 2 STREAM_OUTPUT) 3 CONFIG_INPUT)). eexists. split.
  - split; [split|].
    + repeat constructor; cbn; lia.
    + intros v [<-|[<-|[<-|[]]]]; discriminate.
    + intros v. cbn. unfold am_set, am_empty. destruct (Z.eqb_spec v 3), (Z.eqb_spec v 2), (Z.eqb_spec v 1); subst; auto; congruence.
  - split; [vm_compute; reflexivity|]. split; [reflexivity|]. cbn. lia.
Qed.
Print Assumptions C46_leftovers_refuted.
Example C46_case : exists c, get_aggregator shipped_dir sort_merge sort_example [5; 6] 7 = Ok (Some (CUSTOM_2_ARY, c)) /\
  v_flags c = [FFlag "-n"; FOptIO "-k" (PArg "2"); FFlag "-m"] /\ v_ops c = [PVar 5; PVar 6] /\ v_in c = PNone /\ v_out c = PVar 7 /\
  v_acc c 7 = Some STREAM_OUTPUT /\ v_acc c 1 = None /\ v_acc c 2 = None.
Proof. eexists. split; [vm_compute; reflexivity|]. repeat split. Qed.

(** ** C31: the merging sort that is obtained *)
Theorem C31_actual_aggregator : forall dir inv l b p orig i1 i2 o out,
  In (cmd_name inv) ["sort"; "custom_sort"] -> annotated dir inv (Some (l, b)) -> In p l ->
  consistent orig -> (forall x, In x (option_args (v_flags orig)) -> ~ has orig STREAM_INPUT x) ->
  i1 <> i2 -> v_acc orig i1 = None -> v_acc orig i2 = None ->
  v_out orig = PVar o -> v_acc orig o = Some STREAM_OUTPUT ->
  exists c order, get_aggregator dir (p_aggregator p) orig [i1; i2] out = Ok (Some (CUSTOM_2_ARY, c)) /\
    v_cmd c = v_cmd orig /\ kept (named sort_order_flags) (v_flags orig) order /\ v_flags c = order ++ [FFlag "-m"] /\
    v_ops c = [PVar i1; PVar i2] /\ v_out c = PVar out.
Proof.
  intros dir inv l b p orig i1 i2 o out S A I C H NE A1 A2 O AO.
  destruct (C31_sort_flags dir inv l b p S A I) as (t & -> & T). destruct (T (v_flags orig)) as (order & K & E).
  destruct (C46_aggregator dir CUSTOM_2_ARY t orig [i1; i2] o STREAM_OUTPUT out) as (c & R & P1 & P2 & P3 & _ & P5 & _).
  - split; [discriminate|reflexivity].
  - rewrite E. eapply kept_consistent; eassumption.
  - intros x J. apply (H x). revert J. cbn [v_flags with_flags]. rewrite E. clear -K. unfold option_args. rewrite flat_map_app, app_nil_r.
    rewrite !in_flat_map. intros (f & J & X). exists f. split; [|exact X]. now apply (kept_in _ _ _ _ K) in J.
  - repeat constructor; cbn; intuition.
  - intros v [<-|[<-|[]]]; auto.
  - exact O.
  - exact AO.
  - discriminate.
  - exists c, order. rewrite <- E. auto 10.
Qed.
Print Assumptions C31_actual_aggregator.
Example C31_actual_case : exists c, get_aggregator shipped_dir sort_merge sort_example [5; 6] 7 = Ok (Some (CUSTOM_2_ARY, c)) /\
  v_cmd c = "sort" /\ v_ops c = [PVar 5; PVar 6] /\ v_out c = PVar 7.
Proof.
  destruct (C31_actual_aggregator shipped_dir (mkInv "sort" [Flag "-n"] []) [chunks sort_merge] true (chunks sort_merge) sort_example 5 6 2 7)
    as (c & order & G & N & _ & _ & O & U).
  - now left.
  - apply C25_exact. vm_compute. reflexivity.
  - now left.
  - exact sort_example_consistent.
  - intros x [<-|[]] (v & E & _). discriminate E.
  - lia.
  - reflexivity.
  - reflexivity.
  - reflexivity.
  - reflexivity.
  - now exists c.
Qed.

(** ** C47: aggregators by command string *)
Theorem C47_aggregator : forall dir k s orig ins out inv flags,
  parse dir s = Ok inv -> flags_only (flag_option_list inv) flags -> k <> ADJ_LINES_FUNC -> takes k (length ins) ->
  exists c, get_aggregator dir (AggString k s true) orig ins out = Ok (Some (k, c)) /\
    v_cmd c = cmd_name inv /\ v_flags c = flags /\ v_ops c = map PVar ins /\ v_in c = PNone /\ v_out c = PVar out /\
    vars c = ins ++ [out] /\
    v_acc c out = Some STREAM_OUTPUT /\
    (forall v, v <> out -> In v ins -> v_acc c v = Some STREAM_INPUT) /\
    (forall v, v <> out -> ~ In v ins -> v_acc c v = None).
Proof.
  intros dir k s orig ins out inv flags P F NK T. cbn [get_aggregator agg_is_implemented negb]. unfold get_aggregator_string.
  pose proof (flags_only_args _ _ F) as FA. apply only_flags_iff in F.
  rewrite P. cbn [bind]. rewrite F. cbn [bind]. cbv zeta.
  eexists. split; [destruct k; try reflexivity; [congruence|]; rewrite (proj2 T) by reflexivity; reflexivity|].
  cbn [v_cmd v_flags v_ops v_in v_out v_acc]. repeat split.
  - rewrite vars_eq. cbn [v_flags v_ops v_in v_out]. rewrite FA. cbn. f_equal. clear. induction ins as [|x l IH]; [reflexivity|]. cbn. now f_equal.
  - apply am_set_eq.
  - intros v NE I. rewrite am_set_ne by exact NE. now apply am_of_in.
  - intros v NE I. rewrite am_set_ne by exact NE. now rewrite am_of_out.
Qed.
Print Assumptions C47_aggregator.
(** Otherwise an exception is raised. *)
Theorem C47_rejects : forall dir k s orig ins out,
  ~ (exists inv flags, parse dir s = Ok inv /\ flags_only (flag_option_list inv) flags /\ k <> ADJ_LINES_FUNC /\ takes k (length ins)) ->
  exists e, get_aggregator dir (AggString k s true) orig ins out = Raise e.
Proof.
  intros dir k s orig ins out N. cbn [get_aggregator agg_is_implemented negb]. unfold get_aggregator_string.
  destruct (parse dir s) as [inv|e] eqn:P; cbn [bind]; [|eauto].
  destruct (only_flags (flag_option_list inv)) as [l|e] eqn:F; cbn [bind]; [|eauto]. apply only_flags_iff in F. cbv zeta.
  assert (G : k <> ADJ_LINES_FUNC -> takes k (length ins) -> False) by (intros A B; apply N; exists inv, l; auto).
  destruct k; try (exfalso; apply G; [discriminate|split; discriminate]).
  - destruct (Nat.eqb _ _); cbn; eauto.
  - destruct (Nat.eqb_spec (length ins) 2) as [E|E]; cbn; [|eauto]. exfalso. apply G; [discriminate|]. split; [discriminate|auto].
Qed.
Print Assumptions C47_rejects.
Example C47_rejects_case : exists e, get_aggregator shipped_dir (AggString CUSTOM_2_ARY "sort -k 1" true) sort_example [5; 6] 7 = Raise e.
Proof. eexists. vm_compute. reflexivity. Qed.
Theorem C47_with_aux : forall dir k s b i1 aux1 i2 aux2 out aux_out inv flags,
  length aux1 = length aux2 -> length aux1 = length aux_out ->
  parse dir s = Ok inv -> flags_only (flag_option_list inv) flags ->
  exists c, get_actual_2_ary_aggregator_with_aux dir (AggString k s b) i1 aux1 i2 aux2 out aux_out = Ok (k, c) /\
    v_cmd c = cmd_name inv /\ v_flags c = flags /\
    v_ops c = map PVar (i1 :: aux1 ++ i2 :: aux2 ++ out :: aux_out) /\ v_in c = PNone /\ v_out c = PNone /\
    (forall v, In v (out :: aux_out) -> v_acc c v = Some STREAM_OUTPUT) /\
    (forall v, ~ In v (out :: aux_out) -> In v (i1 :: aux1 ++ i2 :: aux2) -> v_acc c v = Some STREAM_INPUT) /\
    (forall v, ~ In v (out :: aux_out) -> ~ In v (i1 :: aux1 ++ i2 :: aux2) -> v_acc c v = None).
Proof.
  intros dir k s b i1 aux1 i2 aux2 out aux_out inv flags L1 L2 P F. apply only_flags_iff in F.
  unfold get_actual_2_ary_aggregator_with_aux. rewrite <- L1, <- L2, Nat.eqb_refl. cbn [assert_ bind]. rewrite P. cbn [bind].
  rewrite F. cbn [bind]. cbv zeta. eexists. split; [reflexivity|]. cbn [v_cmd v_flags v_ops v_in v_out v_acc].
  repeat split.
  - cbn. f_equal. f_equal. rewrite <- !app_assoc. cbn. now rewrite <- ?app_assoc.
  - intros v I. now apply am_of_in.
  - intros v I J. rewrite am_of_out by exact I. now apply am_of_in.
  - intros v I J. rewrite am_of_out by exact I. now rewrite am_of_out.
Qed.
Print Assumptions C47_with_aux.
Example C47_with_aux_case : exists c, get_actual_2_ary_aggregator_with_aux shipped_dir (AggString CUSTOM_2_ARY "bigram_aux_reduce" true) 1 [2; 3] 4 [5; 6] 7 [8; 9] = Ok (CUSTOM_2_ARY, c) /\
  v_ops c = map PVar [1; 2; 3; 4; 5; 6; 7; 8; 9] /\ v_acc c 7 = Some STREAM_OUTPUT /\ v_acc c 4 = Some STREAM_INPUT.
Proof. eexists. split; [vm_compute; reflexivity|]. repeat split. Qed.
(** With auxiliary inputs nothing else is checked: neither whether the part is implemented ... *)
Theorem C47_unimplemented_refuted : exists a c,
  agg_is_implemented a = false /\ agg_kind_of a = CUSTOM_N_ARY /\
  get_actual_2_ary_aggregator_with_aux shipped_dir a 1 [2] 3 [4] 5 [6] = Ok (CUSTOM_N_ARY, c).
Proof. exists (AggString CUSTOM_N_ARY "bigram_aux_reduce" false). eexists. split; [reflexivity|]. split; [reflexivity|]. vm_compute. reflexivity. Qed.
Print Assumptions C47_unimplemented_refuted.
(** ... nor does the string's operand list count: it is dropped. *)
Theorem C47_operands_dropped : forall dir k s s' orig ins out inv inv',
  parse dir s = Ok inv -> parse dir s' = Ok inv' -> cmd_name inv = cmd_name inv' -> flag_option_list inv = flag_option_list inv' ->
  get_aggregator dir (AggString k s true) orig ins out = get_aggregator dir (AggString k s' true) orig ins out.
Proof.
  intros dir k s s' orig ins out inv inv' P P' N F. cbn [get_aggregator agg_is_implemented negb]. unfold get_aggregator_string.
  rewrite P, P'. cbn [bind]. now rewrite N, F.
Qed.
Print Assumptions C47_operands_dropped.
Example C47_operands_dropped_case : get_aggregator shipped_dir (AggString CUSTOM_2_ARY "sort -m a" true) sort_example [5; 6] 7 =
  get_aggregator shipped_dir (AggString CUSTOM_2_ARY "sort -m b" true) sort_example [5; 6] 7.
Proof.
  apply (C47_operands_dropped shipped_dir CUSTOM_2_ARY "sort -m a" "sort -m b" sort_example [5; 6] 7 (mkInv "sort" [Flag "-m"] ["a"]) (mkInv "sort" [Flag "-m"] ["b"]));
    reflexivity || (vm_compute; reflexivity).
Qed.
Example C47_case : exists c, get_aggregator shipped_dir (AggString CUSTOM_2_ARY "sort -m -n x" true) sort_example [5; 6] 7 = Ok (Some (CUSTOM_2_ARY, c)) /\
  v_cmd c = "sort" /\ v_flags c = [FFlag "-m"; FFlag "-n"] /\ v_ops c = [PVar 5; PVar 6].
Proof. eexists. split; [vm_compute; reflexivity|]. repeat split. Qed.
