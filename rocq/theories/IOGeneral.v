(** * General facts about generated input/output information *)
Require Export Verif.ListFacts.
Require Import Verif.PyBase Verif.JsonData Verif.Parser Verif.Access Verif.IOInfo Verif.IOGen Verif.ShippedData
  Verif.SpecParser Verif.SpecIO Verif.ParserFacts Verif.ParserProps Verif.ShippedFacts Verif.IOFacts Verif.IOProps.
From Coq Require Import Permutation Lia.

Local Arguments mem : simpl never.

(** ** Invariant of the operand typers *)
Definition simple (t : typer) : Prop :=
  t = ARGSTRING \/ t = FILESTD CONFIG_INPUT \/ t = FILESTD STREAM_INPUT \/ t = FILESTD OTHER_INPUT \/
  t = FILESTD STREAM_OUTPUT \/ t = FILESTD OTHER_OUTPUT.
Definition good (k : nat) (i : io_info) : Prop :=
  length (operand_list_typer i) = k /\ Forall simple (operand_list_typer i).

Lemma good_blank inv : good (length (operand_list inv)) (blank inv).
Proof.
  split; [apply repeat_length|]. apply Forall_forall. intros t H. apply repeat_spec in H. unfold simple. auto.
Qed.
Lemma good_stdin k b i : good k i -> good k (set_implicit_use_of_stdin b i).
Proof. destruct b; auto. Qed.
Lemma good_stdout k b i : good k i -> good k (set_implicit_use_of_stdout b i).
Proof. destruct b; auto. Qed.
Lemma good_all k t i : simple t -> good k i -> good k (set_all t i).
Proof.
  intros T [L F]. split; cbn; [now rewrite repeat_length|].
  apply Forall_forall. intros t' H. apply repeat_spec in H. now subst.
Qed.
Lemma good_first k t i i' : simple t -> good k i -> set_first t i = Ok i' -> good k i'.
Proof.
  unfold set_first. intros T [L F]. destruct (operand_list_typer i) as [|x l] eqn:E; [discriminate|].
  intros [= <-]. split; cbn; [exact L|]. inversion F; subst. now constructor.
Qed.
Lemma good_last k t i i' : simple t -> good k i -> set_last t i = Ok i' -> good k i'.
Proof.
  unfold set_last. intros T [L F]. destruct (operand_list_typer i) as [|x l] eqn:E; [discriminate|].
  assert (N : x :: l <> []) by discriminate. revert F L. rewrite (app_removelast_last x N) at 1 2.
  intros F L. intros [= <-]. split.
  - cbn [operand_list_typer with_operand_typer]. rewrite app_length in *. exact L.
  - cbn [operand_list_typer with_operand_typer]. apply Forall_app in F as [F _]. apply Forall_app. auto.
Qed.
Lemma good_get_last k i t : good k i -> get_last i = Ok t -> simple t.
Proof.
  unfold get_last. intros [L F]. destruct (operand_list_typer i) as [|x l] eqn:E; [discriminate|].
  intros [= <-]. assert (N : x :: l <> []) by discriminate. rewrite (app_removelast_last x N) in F.
  apply Forall_app in F as [_ F]. inversion F as [|? ? F1 F2]; subst.
  replace (last l x) with (last (x :: l) x) by (destruct l; reflexivity). exact F1.
Qed.

Lemma Ok_inj {A} (x y : A) : Ok x = Ok y -> x = y.
Proof. congruence. Qed.

Definition preserves (g : generator) : Prop :=
  forall inv i, g inv (blank inv) = Ok i -> good (length (operand_list inv)) i.

Lemma s_arg : simple ARGSTRING. Proof. unfold simple; auto 10. Qed.
Lemma s_ci : simple (FILESTD CONFIG_INPUT). Proof. unfold simple; auto 10. Qed.
Lemma s_si : simple (FILESTD STREAM_INPUT). Proof. unfold simple; auto 10. Qed.
Lemma s_oi : simple (FILESTD OTHER_INPUT). Proof. unfold simple; auto 10. Qed.
Lemma s_so : simple (FILESTD STREAM_OUTPUT). Proof. unfold simple; auto 10. Qed.
Lemma s_oo : simple (FILESTD OTHER_OUTPUT). Proof. unfold simple; auto 10. Qed.
#[local] Hint Resolve good_blank s_arg s_ci s_si s_oi s_so s_oo : io.
Ltac goods := repeat first
  [ assumption | apply good_stdin | apply good_stdout | apply good_all; [auto with io|]
  | match goal with
    | |- good ?k {| operand_list_typer := operand_list_typer ?a |} => change (good k a)
    | H : set_first _ _ = Ok ?i |- good _ ?i => eapply good_first; [| |exact H]; clear H; [auto with io|]
    | H : set_last _ _ = Ok ?i |- good _ ?i => eapply good_last; [| |exact H]; clear H; [auto with io|]
    end ].

Ltac pres :=
  intros inv i; pose proof (good_blank inv) as B;
  unfold io_alt_bigram_aux_reduce, io_stdin_stdout, io_awk, io_cat, io_comm, io_sort,
  io_tr, io_diff, io_grep, io_rm, io_sed, io_seq, io_set_diff, io_tee, io_uniq, io_wc, io_xargs,
  if_no_operands_given_stdin_implicitly_used, operand_list_length, all_operands_are_streaming_inputs,
  all_but_first_operand_is_streaming_input, all_but_last_operand_is_streaming_input, only_last_operand_is_stream_output,
  set_all_operands_as_config_arg_type_string, set_all_operands_as_arg_string,
  all_operands_are_streaming_outputs, all_operands_are_other_outputs, all_operands_are_other_inputs,
  set_first_operand_as_config_arg_type_string, set_first_operand_as_config_arg_type_filename_or_std_descriptor, assert_;
  repeat match goal with |- context [contains_one_of ?a ?b] => destruct (contains_one_of a b) end;
  repeat match goal with |- context [Nat.eqb ?a ?b] => destruct (Nat.eqb a b) end;
  cbn [negb andb bind];
  repeat match goal with |- context [bind (set_first ?t ?i) _] => destruct (set_first t i) eqn:?; cbn [bind] end;
  intros H; first [discriminate H | apply Ok_inj in H; subst i; goods | goods].

Lemma all_preserve : Forall (fun p => preserves (snd p)) io_generator_classes.
Proof.
  unfold io_generator_classes.
  repeat (apply Forall_cons; [unfold preserves; cbn [snd]|]).
  all: try (pres; fail).
  - (* mv *)
    intros inv i. pose proof (good_blank inv) as B. unfold io_mv.
    destruct (length (get_flag_option_list_filtered_with inv ["-t"])) as [|[|?]]; [|intros H; apply Ok_inj in H; subst i; goods|discriminate].
    unfold all_but_last_operand_is_other_input.
    destruct (get_last (blank inv)) as [t|] eqn:T; [|discriminate]. cbn [bind].
    destruct (set_last _ _) as [i'|] eqn:S; [|discriminate]. cbn [bind]. intros H.
    eapply good_last; [| |exact H]; auto with io.
    eapply good_last; [| |exact S]; auto with io.
    + eapply good_get_last; eauto.
    + apply good_all; auto with io.
  - constructor.
Qed.

Lemma info_some dir inv i : get_input_output_info dir inv = Some i ->
  exists g, generator_of inv = Some g /\
  get_flagoption_list_typer dir inv = Ok (flagoption_list_typer i) /\ good (length (operand_list inv)) i.
Proof.
  unfold get_input_output_info, init_io_info, dict_get.
  destruct (dict_find io_generator_classes (representation_of (cmd_name inv))) as [g|] eqn:G; [|discriminate].
  cbn [bind]. pose proof (generator_parametric _ _ G) as P.
  destruct (get_flagoption_list_typer dir inv) as [ts|] eqn:T; [|discriminate]. cbn [bind].
  specialize (P inv (blank inv) ts).
  change (with_fot ts (blank inv)) with (new_io_info ts (length (operand_list inv))) in P. rewrite P.
  destruct (g inv (blank inv)) as [i'|] eqn:E; [|discriminate]. cbn. intros H. injection H as <-.
  exists g. split; [exact G|]. split; [reflexivity|].
  pose proof all_preserve as F. rewrite Forall_forall in F.
  specialize (F _ (dict_find_In' _ _ _ G)). apply (F _ _ E).
Qed.

Lemma apply_simple s t : simple t -> exists x, apply_typer_to_arg s t = Ok x.
Proof. intros H. destruct t as [a| |]; [rewrite apply_file; eauto|cbn; eauto|]. unfold simple in H. intuition discriminate. Qed.

Lemma operands_apply ops : forall ts, Forall simple ts -> exists xs, apply_operands ops ts = Ok xs.
Proof.
  unfold apply_operands. induction ops as [|o ops IH]; intros ts F; [exists []; reflexivity|].
  destruct ts as [|t ts]; [exists []; reflexivity|]. inversion F; subst. cbn.
  destruct (apply_simple o t) as [x ->]; [assumption|]. cbn.
  destruct (IH ts) as [xs ->]; [assumption|]. cbn. eauto.
Qed.

Lemma info_applies dir inv i : get_input_output_info dir inv = Some i -> exists c, apply_io_info i inv = Ok c.
Proof.
  intros H. apply info_some in H as (g & _ & T & L & F).
  destruct (typer_always_applies _ _ _ T) as [fos A].
  destruct (operands_apply (operand_list inv) _ F) as [xs O].
  unfold apply_io_info. unfold apply_flagoptions in A. unfold apply_operands in O. rewrite A, O. cbn. eauto.
Qed.

(** ** What is kept (C13) and what arguments denote (C14) *)
Lemma apply_reading s t x : apply_typer_to_arg s t = Ok x -> arg_reading s x.
Proof.
  destruct t as [a| |]; [rewrite apply_file|..]; cbn; intros [= <-]; [right|left; reflexivity].
  do 2 eexists. split; [reflexivity|]. now apply denotes_iff.
Qed.
Lemma reading_text s x : arg_reading s x -> text_of x = s.
Proof. intros [->|(a & el & -> & D)]; [reflexivity|]. inversion D; reflexivity. Qed.

Lemma apply_fo_reading fo t x : apply_typer_to_flagoption fo t = Ok x -> fo_reading fo x.
Proof.
  destruct fo as [n|n s]; cbn; [intros [= <-]; constructor|].
  destruct (assert_ _); [|discriminate]. cbn.
  destruct (apply_typer_to_arg s t) as [y|] eqn:A; [|discriminate]. cbn. intros [= <-].
  constructor. eapply apply_reading; exact A.
Qed.

Lemma zip_apply {A B} (f : A * typer -> result B) (R : A -> B -> Prop) :
  (forall x t y, f (x, t) = Ok y -> R x y) ->
  forall l ts ys, map_result f (combine l ts) = Ok ys -> Forall2 R (firstn (length ts) l) ys.
Proof.
  intros H l. induction l as [|x l IH]; intros ts ys M.
  - cbn in M. injection M as <-. rewrite firstn_nil. constructor.
  - destruct ts as [|t ts]; [cbn in M; injection M as <-; constructor|]. cbn in M.
    destruct (f (x, t)) as [y|] eqn:E; [|discriminate]. cbn in M.
    destruct (map_result f (combine l ts)) as [ys'|] eqn:E2; [|discriminate]. cbn in M. injection M as <-.
    cbn. constructor; [eapply H; exact E|]. apply IH. exact E2.
Qed.

Lemma apply_reads i inv c : apply_io_info i inv = Ok c ->
  io_cmd_name c = cmd_name inv /\
  Forall2 fo_reading (firstn (length (flagoption_list_typer i)) (flag_option_list inv)) (io_flag_option_list c) /\
  Forall2 arg_reading (firstn (length (operand_list_typer i)) (operand_list inv)) (io_operand_list c) /\
  io_implicit_input c = implicit_input i /\ io_implicit_output c = implicit_output i.
Proof.
  unfold apply_io_info.
  destruct (map_result _ (combine (flag_option_list inv) _)) as [fos|] eqn:F; [|discriminate]. cbn [bind].
  destruct (map_result _ (combine (operand_list inv) _)) as [ops|] eqn:O; [|discriminate]. cbn.
  intros [= <-]. cbn. repeat split.
  - eapply zip_apply; [|exact F]. intros x t y H. eapply apply_fo_reading; exact H.
  - eapply zip_apply; [|exact O]. intros x t y H. eapply apply_reading; exact H.
Qed.

Lemma with_io_reads dir inv c : with_io dir inv c ->
  io_cmd_name c = cmd_name inv /\
  Forall2 fo_reading (flag_option_list inv) (io_flag_option_list c) /\
  Forall2 arg_reading (operand_list inv) (io_operand_list c).
Proof.
  intros (i & H & A). apply info_some in H as (g & _ & T & L & _).
  apply apply_reads in A as (N & F & O & _). rewrite (typer_length _ _ _ T), firstn_all in F.
  rewrite L, firstn_all in O. auto.
Qed.

(** ** C17 *)
Lemma Forall2_weaken {A B} (R R' : A -> B -> Prop) l l' :
  (forall x y, R x y -> R' x y) -> Forall2 R l l' -> Forall2 R' l l'.
Proof. intros H. induction 1; constructor; auto. Qed.

Lemma other_arg s t x : apply_typer_to_arg s t = Ok x ->
  (has_access x OTHER_OUTPUT <-> typer_access t = Some OTHER_OUTPUT).
Proof.
  unfold has_access. destruct t as [a| |]; [rewrite apply_file|..]; cbn; intros [= <-].
  - split; [intros [el [= _ ->]]; reflexivity | intros [= ->]; eauto].
  - split; [intros [el X]; discriminate | discriminate].
Qed.

Lemma zip_exists {A B} (f : A * typer -> result B) (P : typer -> Prop) (Q : B -> Prop) :
  (forall x t y, f (x, t) = Ok y -> (P t <-> Q y)) ->
  forall l ts ys, length ts = length l -> map_result f (combine l ts) = Ok ys ->
  ((exists t, In t ts /\ P t) <-> (exists y, In y ys /\ Q y)).
Proof.
  intros H l. induction l as [|x l IH]; intros ts ys L M; destruct ts as [|t ts]; try discriminate L.
  - cbn in M. injection M as <-. split; intros (? & [] & _).
  - cbn in M. destruct (f (x, t)) as [y|] eqn:E; [|discriminate]. cbn in M.
    destruct (map_result f (combine l ts)) as [ys'|] eqn:E2; [|discriminate]. cbn in M. injection M as <-.
    injection L as L. specialize (IH ts ys' L E2). specialize (H _ _ _ E). cbn.
    split.
    + intros (t' & [<-|I] & K); [exists y; tauto|]. destruct IH as [IH _]. destruct IH as (y' & ? & ?); eauto.
    + intros (t' & [<-|I] & K); [exists t; tauto|]. destruct IH as [_ IH]. destruct IH as (y' & ? & ?); eauto.
Qed.

Definition option_arg_with (a : access) (x : flag_option_io) : Prop :=
  match x with FlagIO _ => False | OptionIO _ y => has_access y a end.

Lemma other_outputs dir inv i c : get_input_output_info dir inv = Some i -> apply_io_info i inv = Ok c ->
  has_other_outputs i = true <->
  (exists x, In x (io_operand_list c) /\ has_access x OTHER_OUTPUT) \/
  (exists n x, In (OptionIO n x) (io_flag_option_list c) /\ has_access x OTHER_OUTPUT).
Proof.
  intros H A. apply info_some in H as (g & _ & T & L & _).
  pose proof (typer_length _ _ _ T) as L2.
  assert (PF : Forall2 (fun fo t => match fo with Flag _ => t = PLAINSTRING | _ => True end)
                (flag_option_list inv) (flagoption_list_typer i)).
  { clear -T. unfold get_flagoption_list_typer in T.
    destruct (get_dict_option_to_class_for_arg dir (cmd_name inv)) as [d|]; [|discriminate]. cbn in T.
    apply map_result_Forall2 in T. eapply Forall2_weaken; [|exact T]. intros [n|n s] t X; [congruence|exact I]. }
  unfold apply_io_info in A.
  destruct (map_result _ (combine (flag_option_list inv) _)) as [fos|] eqn:F; [|discriminate]. cbn [bind] in A.
  destruct (map_result _ (combine (operand_list inv) _)) as [ops|] eqn:O; [|discriminate]. cbn in A.
  injection A as <-. cbn.
  unfold has_other_outputs. rewrite existsb_app, orb_true_iff, !existsb_exists.
  assert (S : forall t, match typer_access t with Some a => is_other_output a | None => false end = true <->
                        typer_access t = Some OTHER_OUTPUT).
  { intros t. destruct (typer_access t) as [[]|]; cbn; split; congruence. }
  setoid_rewrite S.
  assert (X1 : (exists t, In t (operand_list_typer i) /\ typer_access t = Some OTHER_OUTPUT) <->
               (exists x, In x ops /\ has_access x OTHER_OUTPUT)).
  { eapply zip_exists; [|exact L|exact O]. intros x t y E. symmetry. eapply other_arg; exact E. }
  rewrite X1. rewrite or_comm. apply or_iff_compat_l.
  transitivity (exists x, In x fos /\ option_arg_with OTHER_OUTPUT x).
  - clear -F PF. revert fos F. induction PF as [|fo t l ts P PF IH]; intros fos F.
    + cbn in F. injection F as <-. split; intros (? & [] & _).
    + cbn in F. destruct (apply_typer_to_flagoption fo t) as [y|] eqn:E; [|discriminate]. cbn in F.
      destruct (map_result _ _) as [fos'|] eqn:E2; [|discriminate]. cbn in F. injection F as <-.
      specialize (IH _ eq_refl).
      assert (K : typer_access t = Some OTHER_OUTPUT <-> option_arg_with OTHER_OUTPUT y).
      { destruct fo as [n|n s]; cbn in E.
        - injection E as <-. subst t. cbn. split; [discriminate|tauto].
        - destruct (assert_ _); [|discriminate]. cbn in E.
          destruct (apply_typer_to_arg s t) as [z|] eqn:Z; [|discriminate]. cbn in E. injection E as <-.
          cbn. symmetry. eapply other_arg; exact Z. }
      cbn. split.
      * intros (t' & [<-|I] & Q); [exists y; tauto|]. destruct (proj1 IH) as (y' & ? & ?); eauto.
      * intros (t' & [<-|I] & Q); [exists t; tauto|]. destruct (proj2 IH) as (y' & ? & ?); eauto.
  - split.
    + intros ([n|n x] & I & Q); [destruct Q|eauto].
    + intros (n & x & I & Q). exists (OptionIO n x). auto.
Qed.

(** ** C18 *)
Definition accessible (x : io_arg) : Prop :=
  ~ has_access x CONTAINER_FOR_INPUT /\ ~ has_access x EXCLUDES_FROM_INPUT.

Definition all_accessors (c : invocation_io) : list io_arg :=
  get_operands_with_config_input c ++ get_operands_with_stream_input c ++ get_operands_with_other_input c ++
  get_operands_with_stream_output c ++ get_operands_with_other_output c.

Lemma accessors_partition c : Forall accessible (io_operand_list c) ->
  Permutation (all_accessors c) (io_operand_list c).
Proof.
  unfold all_accessors, get_operands_with_config_input, get_operands_with_stream_input, get_operands_with_other_input,
    get_operands_with_stream_output, get_operands_with_other_output, operands_with.
  induction (io_operand_list c) as [|x l IH]; intros F; cbn; [constructor|].
  inversion F as [|? ? Ax Fl]; subst. specialize (IH Fl).
  destruct x as [s|[el a]]; cbn.
  - now constructor.
  - destruct a; cbn.
    + now constructor.
    + apply Permutation_sym, Permutation_cons_app, Permutation_sym. exact IH.
    + exfalso. destruct Ax as [Ax _]. apply Ax. eexists; reflexivity.
    + exfalso. destruct Ax as [_ Ax]. apply Ax. eexists; reflexivity.
    + rewrite app_assoc. apply Permutation_sym, Permutation_cons_app, Permutation_sym. now rewrite <- app_assoc.
    + rewrite !app_assoc. apply Permutation_sym, Permutation_cons_app, Permutation_sym. rewrite !app_assoc in IH.
      now rewrite <- !app_assoc in *.
    + rewrite !app_assoc. apply Permutation_sym, Permutation_cons_app, Permutation_sym. now rewrite <- !app_assoc in *.
Qed.

Lemma with_io_accessible dir inv c : with_io dir inv c -> Forall accessible (io_operand_list c).
Proof.
  intros (i & H & A). apply info_some in H as (g & _ & _ & L & S).
  unfold apply_io_info in A.
  destruct (map_result _ (combine (flag_option_list inv) _)) as [fos|] eqn:F; [|discriminate]. cbn [bind] in A.
  destruct (map_result _ (combine (operand_list inv) _)) as [ops|] eqn:O; [|discriminate]. cbn in A.
  injection A as <-. cbn. clear F. revert L S ops O. generalize (operand_list_typer i) as ts.
  induction (operand_list inv) as [|o l IH]; intros ts L S ops O.
  - cbn in O. injection O as <-. constructor.
  - destruct ts as [|t ts]; [discriminate|]. cbn in O.
    destruct (apply_typer_to_arg o t) as [x|] eqn:E; [|discriminate]. cbn in O.
    destruct (map_result _ _) as [xs|] eqn:E2; [|discriminate]. cbn in O. injection O as <-.
    inversion S as [|? ? S1 S2]; subst. injection L as L. constructor; [|eapply IH; eauto].
    unfold accessible, has_access. unfold simple in S1.
    repeat (destruct S1 as [->|S1]; [cbn in E; injection E as <-; split; intros [el X]; discriminate|]).
    subst t. cbn in E. injection E as <-. split; intros [el X]; discriminate.
Qed.

(** Exactly which operands each accessor returns. *)
Lemma accessor_config c :
  kept (fun x => (exists s, x = ArgString s) \/ has_access x CONFIG_INPUT) (io_operand_list c) (get_operands_with_config_input c).
Proof.
  apply filter_kept. intros x. destruct x as [s|[el a]]; [intuition eauto|]. unfold has_access.
  destruct a; cbn; (split; [try discriminate; intros _; right; eexists; reflexivity|
    intros [[s X]|[el' X]]; try discriminate X; reflexivity]).
Qed.
Lemma has_access_iff p a0 x : (forall a, p a = true <-> a = a0) ->
  match x with ArgString _ => false | Res r => p (res_access r) end = true <-> has_access x a0.
Proof.
  intros K. unfold has_access. destruct x as [s|[el a]]; cbn; [split; [discriminate|intros [el X]; discriminate]|].
  rewrite K. split; [intros ->; eauto|intros [el' [= -> ->]]; reflexivity].
Qed.
Lemma accessor_kind p a0 c : (forall a, p a = true <-> a = a0) ->
  kept (fun x => has_access x a0) (io_operand_list c) (operands_with p c).
Proof. intros K. apply filter_kept. intros x. now apply has_access_iff. Qed.
Lemma accessor_options c :
  kept (fun f => exists n x, f = OptionIO n x /\ has_access x OTHER_OUTPUT) (io_flag_option_list c)
       (get_options_with_other_output c).
Proof.
  apply filter_kept. intros [n|n x]; [split; [discriminate|intros (? & ? & [=] & _)]|].
  assert (K : forall a, is_other_output a = true <-> a = OTHER_OUTPUT) by (intros []; vm_compute; split; congruence).
  pose proof (has_access_iff _ _ x K) as H. destruct x as [s|r].
  - split; [discriminate|]. intros (m & x & [= <- <-] & [el X]). discriminate X.
  - rewrite H. split; [eauto|]. intros (m & x & [= <- <-] & X). exact X.
Qed.

(** ** Setters (C55) *)
Lemma nth_repeat_lt {A} (t : A) n k : k < n -> nth_error (repeat t n) k = Some t.
Proof. revert k. induction n as [|n IH]; intros [|k] H; cbn; try lia; [reflexivity|apply IH; lia]. Qed.
Lemma retyped_all t i : retyped (fun _ => True) t i (set_all t i).
Proof.
  unfold set_all. repeat split; cbn; [apply repeat_length| |tauto]. intros _. now apply nth_repeat_lt.
Qed.
Lemma retyped_first t i : operand_list_typer i <> [] ->
  exists i', set_first t i = Ok i' /\ retyped (fun k => k = 0) t i i'.
Proof.
  unfold set_first. destruct (operand_list_typer i) as [|x l] eqn:E; [tauto|]. intros _.
  eexists. split; [reflexivity|]. unfold retyped. rewrite E. repeat split; intros; subst; cbn; [reflexivity|].
  destruct k; [tauto|reflexivity].
Qed.
Lemma retyped_last t i : operand_list_typer i <> [] ->
  exists i', set_last t i = Ok i' /\ retyped (is_last i) t i i'.
Proof.
  intros N. destruct (exists_last N) as (l & x & E). exists (with_operand_typer i (l ++ [t])). split.
  - unfold set_last. rewrite E. destruct (l ++ [x]) as [|y l'] eqn:F; [now destruct l|]. rewrite <- F, removelast_last. reflexivity.
  - unfold retyped, is_last. rewrite E. cbn. rewrite !app_length. cbn. repeat split; intros.
    + rewrite nth_error_app2 by lia. replace (k - length l) with 0 by lia. reflexivity.
    + rewrite !nth_error_app1 by lia. reflexivity.
Qed.
Lemma get_last_spec i : operand_list_typer i <> [] ->
  exists t, get_last i = Ok t /\ forall k, is_last i k -> nth_error (operand_list_typer i) k = Some t.
Proof.
  intros N. unfold get_last, is_last. destruct (exists_last N) as (l & x & E). rewrite E. exists x. split.
  - destruct l as [|y l]; [reflexivity|]. cbn [app]. now rewrite last_last.
  - intros k K. rewrite app_length in K. cbn in K. rewrite nth_error_app2 by lia. replace (k - length l) with 0 by lia. reflexivity.
Qed.
Lemma get_first_spec i : operand_list_typer i <> [] ->
  exists t, get_first i = Ok t /\ nth_error (operand_list_typer i) 0 = Some t.
Proof. unfold get_first. destruct (operand_list_typer i); [tauto|]. intros _. eexists. split; reflexivity. Qed.
Lemma set_all_nonempty t i : operand_list_typer i <> [] -> operand_list_typer (set_all t i) <> [].
Proof. unfold set_all. cbn. destruct (operand_list_typer i); [tauto|discriminate]. Qed.
Lemma sets_first t i : sets (set_first t i) (is_first i) t i.
Proof.
  destruct (operand_list_typer i) as [|x l] eqn:E; [left|right].
  - unfold set_first. now rewrite E.
  - split; [congruence|]. apply retyped_first. congruence.
Qed.
Lemma sets_last t i : sets (set_last t i) (is_last i) t i.
Proof.
  destruct (operand_list_typer i) as [|x l] eqn:E; [left|right].
  - unfold set_last. now rewrite E.
  - split; [congruence|]. apply retyped_last. congruence.
Qed.
Lemma sets_but_first t i :
  sets (let! o := get_first i in set_first o (set_all t i)) (fun k => ~ is_first i k) t i.
Proof.
  destruct (operand_list_typer i) as [|x l] eqn:E; [left|right].
  - unfold get_first. now rewrite E.
  - assert (N : operand_list_typer i <> []) by congruence. split; [exact N|].
    destruct (get_first_spec i N) as (o & G & O). rewrite G. cbn [bind].
    destruct (retyped_first o _ (set_all_nonempty t i N)) as (i' & S & R1 & R2 & R3 & R4 & R5).
    destruct (retyped_all t i) as (A1 & A2 & A3 & A4 & A5).
    exists i'. split; [exact S|]. unfold is_first. repeat split; try congruence.
    + intros H1. destruct (R5 k) as [_ Q]; [congruence|]. rewrite Q by exact H1. now apply A5.
    + intros H1. destruct k as [|k]; [|exfalso; apply H1; discriminate]. destruct (R5 0) as [Q _]; [congruence|].
      rewrite Q by reflexivity. now rewrite O.
Qed.
Lemma sets_but_last t i :
  sets (let! o := get_last i in set_last o (set_all t i)) (fun k => ~ is_last i k) t i.
Proof.
  destruct (operand_list_typer i) as [|x l] eqn:E; [left|right].
  - unfold get_last. now rewrite E.
  - assert (N : operand_list_typer i <> []) by congruence. split; [exact N|].
    destruct (get_last_spec i N) as (o & G & O). rewrite G. cbn [bind].
    destruct (retyped_last o _ (set_all_nonempty t i N)) as (i' & S & R1 & R2 & R3 & R4 & R5).
    destruct (retyped_all t i) as (A1 & A2 & A3 & A4 & A5).
    assert (L : forall k, is_last (set_all t i) k <-> is_last i k) by (intros k; unfold is_last; now rewrite A4).
    exists i'. split; [exact S|]. repeat split; try congruence.
    + intros H1. destruct (R5 k) as [_ Q]; [congruence|]. rewrite Q by now rewrite L. now apply A5.
    + intros H1. assert (K : is_last i k) by (unfold is_last in *; lia).
      destruct (R5 k) as [Q _]; [congruence|]. rewrite Q by now apply L. symmetry. auto.
Qed.
