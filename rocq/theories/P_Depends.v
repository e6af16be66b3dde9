(** * C75: which flags and operands the information depends on *)
Require Import Verif.PyBase Verif.JsonData Verif.Parser Verif.Access Verif.IOInfo Verif.IOGen Verif.ParaTypes Verif.ParaGen Verif.ShippedData.
Require Import Verif.SpecParser Verif.SpecIO Verif.SpecPara Verif.SpecDepends Verif.IOFacts Verif.ShippedFacts.
From Coq Require Import Permutation Lia.

Lemma contains_same inv inv' ns names : same_uses names inv inv' -> incl ns names -> contains_one_of inv ns = contains_one_of inv' ns.
Proof.
  intros S I. apply Bool.eq_true_iff_eq. rewrite !contains_iff.
  split; intros (n & A & B); exists n; (split; [exact A|]); apply (S n (I n A)), B.
Qed.
Lemma filtered_uses inv n : get_flag_option_list_filtered_with inv [n] = uses_of inv n.
Proof.
  unfold get_flag_option_list_filtered_with, uses_of. apply filter_ext. intros fo. simpl. now rewrite Bool.orb_false_r.
Qed.
Lemma in_io_commands c g : dict_find io_generator_classes (representation_of c) = Some g -> In c io_commands.
Proof.
  intros H. unfold representation_of, dict_get_default in H. destruct (dict_find cmd_representation c) as [r|] eqn:D; [|discriminate].
  apply dict_find_In in D. cbn [cmd_representation In] in D.
  repeat (destruct D as [D|D]; [injection D as <- <-; first [discriminate H|cbn; tauto]|]). destruct D.
Qed.
Lemma in_para_commands c g : dict_find para_generator_classes (representation_of c) = Some g -> In c para_commands.
Proof.
  intros H. unfold representation_of, dict_get_default in H. destruct (dict_find cmd_representation c) as [r|] eqn:D; [|discriminate].
  apply dict_find_In in D. cbn [cmd_representation In] in D.
  repeat (destruct D as [D|D]; [injection D as <- <-; first [discriminate H|cbn; tauto]|]). destruct D.
Qed.
Ltac look_up G := cbv beta iota delta [representation_of dict_get_default dict_find cmd_representation String.eqb Ascii.eqb Bool.eqb io_generator_classes para_generator_classes] in G.
Ltac inclusion := let x := fresh in intros x; cbn; tauto.
Ltac same_flags := match goal with S : same_uses _ ?a ?b |- _ =>
  repeat match goal with |- context [contains_one_of a ?ns] => rewrite (contains_same a b ns _ S ltac:(inclusion)) end end.

Lemma io_generator_same inv inv' g :
  cmd_name inv = cmd_name inv' -> length (operand_list inv) = length (operand_list inv') ->
  same_uses (io_names (cmd_name inv)) inv inv' -> same_targets inv inv' ->
  dict_find io_generator_classes (representation_of (cmd_name inv)) = Some g ->
  g inv (blank inv) = g inv' (blank inv').
Proof.
  intros C L S T G. assert (Bl : blank inv = blank inv') by (unfold blank; now rewrite L). rewrite <- Bl. generalize (blank inv). intros i.
  unfold same_targets in T. pose proof (in_io_commands _ _ G) as I. unfold io_commands in I. cbn [In] in I.
  repeat (destruct I as [I|I]; [rewrite <- I in *; cbn [io_names] in S; look_up G; injection G as <-|]); [..|destruct I].
  all: unfold io_alt_bigram_aux_reduce, io_stdin_stdout, io_cat, io_comm, io_tr, io_diff, io_rm, io_seq, io_set_diff, io_tee, io_uniq, io_xargs,
         io_awk, io_sort, io_grep, io_sed, io_wc, if_no_operands_given_stdin_implicitly_used, operand_list_length; try rewrite L; try reflexivity.
  all: try (same_flags; reflexivity).
  unfold io_mv. rewrite !filtered_uses. specialize (T eq_refl).
  destruct (length (uses_of inv "-t")) as [|[|n]], (length (uses_of inv' "-t")) as [|[|n']]; cbn in T; try discriminate; reflexivity.
Qed.

(** Two invocations of a command with equally many operands that use the same of a few names have
    the same input/output information apart from their options. *)
Theorem C75_io : forall dir inv inv' i,
  cmd_name inv = cmd_name inv' -> length (operand_list inv) = length (operand_list inv') ->
  same_uses (io_names (cmd_name inv)) inv inv' -> same_targets inv inv' -> classified dir inv' ->
  get_input_output_info dir inv = Some i -> exists i', get_input_output_info dir inv' = Some i' /\ same_streams i i'.
Proof.
  intros dir inv inv' i C L S T (fos & K) H. apply typer_applied in K as (ts' & T' & _).
  unfold get_input_output_info, init_io_info, dict_get in *. rewrite <- C.
  destruct (dict_find io_generator_classes (representation_of (cmd_name inv))) as [g|] eqn:G; [|discriminate].
  pose proof (io_generator_same inv inv' g C L S T G) as E. pose proof (generator_parametric _ _ G) as P.
  destruct (get_flagoption_list_typer dir inv) as [ts|] eqn:Q; [|discriminate]. rewrite T'. cbn [bind] in *.
  pose proof (P inv (blank inv) ts) as P1. pose proof (P inv' (blank inv') ts') as P2. rewrite <- E in P2.
  change (with_fot ts (blank inv)) with (new_io_info ts (length (operand_list inv))) in P1.
  change (with_fot ts' (blank inv')) with (new_io_info ts' (length (operand_list inv'))) in P2.
  rewrite P1 in H. rewrite P2. destruct (g inv (blank inv)) as [j|e]; [|discriminate]. cbn in H. injection H as <-.
  exists (with_fot ts' j). split; [reflexivity|]. repeat split.
Qed.
Print Assumptions C75_io.
(** With the same operands, the operands and implicit streams of the invocations with information
    are the same. *)
Theorem C75_applied : forall dir inv inv' c,
  cmd_name inv = cmd_name inv' -> operand_list inv = operand_list inv' ->
  same_uses (io_names (cmd_name inv)) inv inv' -> same_targets inv inv' -> classified dir inv' ->
  with_io dir inv c -> exists c', with_io dir inv' c' /\ io_operand_list c' = io_operand_list c /\
    io_implicit_input c' = io_implicit_input c /\ io_implicit_output c' = io_implicit_output c.
Proof.
  intros dir inv inv' c C L S T (fos & K) H.
  assert (G : exists g, dict_find io_generator_classes (representation_of (cmd_name inv)) = Some g).
  { destruct H as (i & H & _). unfold get_input_output_info, dict_get in H. destruct (dict_find _ _); [eauto|discriminate]. }
  destruct G as (g & G). pose proof (io_generator_same inv inv' g C (f_equal _ L) S T G) as E. destruct (proj1 (with_io_iff _ _ _ g G) H) as (i & J & ops & A & (_ & _ & S3) & I1 & I2).
  exists (mkInvIO (cmd_name inv') fos ops (implicit_input i) (implicit_output i)). split.
  - rewrite C in G. apply (with_io_iff _ _ _ g G). exists i. split; [congruence|]. exists ops. split; [congruence|]. repeat split. exact K.
  - cbn. split; [congruence|]. split; congruence.
Qed.
Print Assumptions C75_applied.

(** Parallelizability depends on a few names, and on operands only for sed and tr. *)
Theorem C75_para : forall dir inv inv',
  cmd_name inv = cmd_name inv' -> same_uses (para_names (cmd_name inv)) inv inv' ->
  para_operands (cmd_name inv) (operand_list inv) (operand_list inv') ->
  get_parallelizability_info dir inv = get_parallelizability_info dir inv'.
Proof.
  intros dir inv inv' C S O. unfold get_parallelizability_info, dict_get. rewrite <- C.
  destruct (dict_find para_generator_classes (representation_of (cmd_name inv))) as [g|] eqn:G; [|reflexivity]. cbn [bind].
  f_equal. generalize new_para_info. intros i. pose proof (in_para_commands _ _ G) as I. unfold para_commands in I. cbn [In] in I.
  repeat (destruct I as [I|I]; [rewrite <- I in *; cbn [para_names para_operands] in S, O; look_up G; injection G as <-|]); [..|destruct I].
  all: try reflexivity.
  all: try (unfold pg_sort, pg_grep, grep_cases, pg_uniq; same_flags; reflexivity).
  - unfold pg_sed, does_first_operand_start_with, does_first_operand_contain, get_first_operand_name.
    destruct (operand_list inv), (operand_list inv'); cbn in O; try discriminate; [reflexivity|]. injection O as ->. reflexivity.
  - unfold pg_tr, does_last_set_effectively_contain_newline. destruct O as (O & O1).
    same_flags.
    destruct (operand_list inv) as [|a l] eqn:E, (operand_list inv') as [|b l'] eqn:E'.
    + reflexivity.
    + exfalso. cbn in O. destruct (rev l' ++ [b]) eqn:R; [|discriminate]. apply (f_equal (@length _)) in R. rewrite app_length in R. cbn in R. lia.
    + exfalso. cbn in O. destruct (rev l ++ [a]) eqn:R; [|discriminate]. apply (f_equal (@length _)) in R. rewrite app_length in R. cbn in R. lia.
    + assert (LA : forall (l : list string) a, hd_error (rev (a :: l)) = Some (last l a)).
      { clear. intros l. induction l as [|x l IH]; intros a; [reflexivity|]. specialize (IH x). cbn [rev] in *.
        destruct ((rev l ++ [x])) as [|y r] eqn:R; [discriminate|]. cbn in IH |- *. rewrite IH. f_equal. clear. revert a x. induction l as [|z l IH]; intros a x; [reflexivity|]. cbn. destruct l; [reflexivity|apply IH]. }
      rewrite !LA in O. injection O as ->. replace (Nat.eqb (length (b :: l')) 1) with (Nat.eqb (length (a :: l)) 1); [reflexivity|].
      apply Bool.eq_true_iff_eq. rewrite !Nat.eqb_eq. exact O1.
Qed.
Print Assumptions C75_para.

(** ** Order and repetition *)
Lemma uses_map inv n : uses inv n <-> In n (map fo_name (flag_option_list inv)).
Proof. unfold uses. rewrite in_map_iff. split; intros (x & A & B); eauto. Qed.
Lemma permuted_uses inv inv' names : Permutation (flag_option_list inv) (flag_option_list inv') -> same_uses names inv inv'.
Proof.
  intros P n _. rewrite !uses_map. apply (Permutation_map fo_name) in P.
  split; apply Permutation_in; [exact P|now apply Permutation_sym].
Qed.
Lemma permuted_targets inv inv' : Permutation (flag_option_list inv) (flag_option_list inv') -> same_targets inv inv'.
Proof.
  intros P _. f_equal. unfold uses_of. generalize dependent (flag_option_list inv'). generalize (flag_option_list inv). intros l l' P.
  induction P; cbn; repeat match goal with |- context [if ?b then _ else _] => destruct b end; cbn; congruence.
Qed.
Lemma permuted_classified dir inv inv' : cmd_name inv = cmd_name inv' -> Permutation (flag_option_list inv) (flag_option_list inv') ->
  classified dir inv -> classified dir inv'.
Proof.
  intros C P (fos & j & L & K & F). apply Permutation_sym in P. assert (Q : exists fos', Forall2 (fo_classified j) (flag_option_list inv') fos').
  { clear - P F. assert (A : Forall (fun fo => exists x, fo_classified j fo x) (flag_option_list inv)).
    { clear P. induction F; constructor; eauto. }
    assert (B : Forall (fun fo => exists x, fo_classified j fo x) (flag_option_list inv')).
    { rewrite Forall_forall in *. intros x I. apply A. now apply (Permutation_in _ P). }
    clear - B. induction B as [|x l (y & H) _ (fos & IH)]; [exists []; constructor|exists (y :: fos); constructor; auto]. }
  destruct Q as (fos' & Q). exists fos', j. rewrite <- C. auto.
Qed.
Lemma with_io_classified dir inv c : with_io dir inv c -> classified dir inv.
Proof.
  intros H. assert (G : exists g, dict_find io_generator_classes (representation_of (cmd_name inv)) = Some g).
  { destruct H as (i & H & _). unfold get_input_output_info, dict_get in H. destruct (dict_find _ _); [eauto|discriminate]. }
  destruct G as (g & G). destruct (proj1 (with_io_iff _ _ _ g G) H) as (i & _ & ops & _ & (_ & K & _) & _). eexists. exact K.
Qed.
(** The order of flags and options does not matter. *)
Theorem C75_order : forall dir inv inv',
  cmd_name inv = cmd_name inv' -> operand_list inv = operand_list inv' ->
  Permutation (flag_option_list inv) (flag_option_list inv') ->
  get_parallelizability_info dir inv = get_parallelizability_info dir inv' /\
  (forall c, with_io dir inv c -> exists c', with_io dir inv' c' /\ io_operand_list c' = io_operand_list c /\
    io_implicit_input c' = io_implicit_input c /\ io_implicit_output c' = io_implicit_output c).
Proof.
  intros dir inv inv' C O P. split.
  - apply C75_para; [exact C|now apply permuted_uses|]. rewrite O. unfold para_operands.
    repeat match goal with |- match ?x with _ => _ end => destruct x end; tauto.
  - intros c H. apply (C75_applied dir inv); auto using permuted_uses, permuted_targets.
    apply (permuted_classified dir inv); auto. now apply (with_io_classified dir inv c).
Qed.
Print Assumptions C75_order.

(** Nor does a further flag or option with another name. *)
Theorem C75_other_name : forall dir cmd l1 l2 fo ops,
  (~ In (fo_name fo) (para_names cmd) ->
     get_parallelizability_info dir (mkInv cmd (l1 ++ fo :: l2) ops) = get_parallelizability_info dir (mkInv cmd (l1 ++ l2) ops)) /\
  (~ In (fo_name fo) (io_names cmd) -> classified dir (mkInv cmd (l1 ++ fo :: l2) ops) ->
     forall c, with_io dir (mkInv cmd (l1 ++ l2) ops) c -> exists c', with_io dir (mkInv cmd (l1 ++ fo :: l2) ops) c' /\
       io_operand_list c' = io_operand_list c /\ io_implicit_input c' = io_implicit_input c /\ io_implicit_output c' = io_implicit_output c).
Proof.
  intros dir cmd l1 l2 fo ops.
  assert (S : forall names, ~ In (fo_name fo) names -> same_uses names (mkInv cmd (l1 ++ l2) ops) (mkInv cmd (l1 ++ fo :: l2) ops)).
  { intros names N n I. rewrite !uses_map. cbn. rewrite !map_app, !in_app_iff. cbn. assert (fo_name fo <> n) by congruence. tauto. }
  split; intros N.
  - symmetry. apply C75_para; cbn; auto. unfold para_operands. repeat match goal with |- match ?x with _ => _ end => destruct x end; tauto.
  - intros K c H. apply (C75_applied dir (mkInv cmd (l1 ++ l2) ops)); cbn; auto.
    intros M. cbn in M. subst cmd. f_equal. unfold uses_of. cbn. rewrite !filter_app. cbn.
    destruct (String.eqb (fo_name fo) "-t") eqn:E; [|reflexivity]. apply String.eqb_eq in E. rewrite E in N. cbn in N. tauto.
Qed.
Print Assumptions C75_other_name.

(** ** Every one of the names matters *)
Lemma para_names_of cmd n : In n (para_names cmd) -> In cmd ["grep"; "sort"; "custom_sort"; "uniq"; "tr"].
Proof.
  intros I. destruct (in_dec string_dec cmd ["grep"; "sort"; "custom_sort"; "uniq"; "tr"]) as [J|J]; [exact J|exfalso].
  cbn [In] in J. unfold para_names in I. repeat match type of I with context [match ?x with _ => _ end] => destruct x end; try tauto; cbn in J; tauto.
Qed.
Lemma io_names_of cmd n : In n (io_names cmd) -> In cmd ["awk"; "grep"; "sed"; "sort"; "custom_sort"; "mv"; "wc"].
Proof.
  intros I. destruct (in_dec string_dec cmd ["awk"; "grep"; "sed"; "sort"; "custom_sort"; "mv"; "wc"]) as [J|J]; [exact J|exfalso].
  cbn [In] in J. unfold io_names in I. repeat match type of I with context [match ?x with _ => _ end] => destruct x end; try tauto; cbn in J; tauto.
Qed.
Theorem C75_para_needed : forall cmd n, In n (para_names cmd) -> exists fo flags ops, fo_name fo = n /\
  get_parallelizability_info shipped_dir (mkInv cmd (fo :: flags) ops) <> get_parallelizability_info shipped_dir (mkInv cmd flags ops).
Proof.
  intros cmd n I. pose proof (para_names_of cmd n I) as J. exists (Flag n). cbn [In] in J.
  repeat (destruct J as [<-|J]; [cbn [para_names In] in I; repeat (destruct I as [<-|I]; [
    first [exists [], ["a\n"]; split; [reflexivity|vm_compute; discriminate] |
           exists [Flag "-c"], ["a\n"]; split; [reflexivity|vm_compute; discriminate] |
           exists [Flag "-d"], ["a\n"]; split; [reflexivity|vm_compute; discriminate]]|]); destruct I|]). destruct J.
Qed.
Print Assumptions C75_para_needed.
Theorem C75_io_needed : forall cmd n, In n (io_names cmd) -> exists fo flags ops, fo_name fo = n /\
  classified shipped_dir (mkInv cmd (fo :: flags) ops) /\ classified shipped_dir (mkInv cmd flags ops) /\
  ~ exists i i', get_input_output_info shipped_dir (mkInv cmd (fo :: flags) ops) = Some i /\
    get_input_output_info shipped_dir (mkInv cmd flags ops) = Some i' /\ same_streams i i'.
Proof.
  intros cmd n I. pose proof (io_names_of cmd n I) as J. exists (Flag n), [].
  assert (K : forall inv ts, get_flagoption_list_typer shipped_dir inv = Ok ts -> classified shipped_dir inv).
  { intros inv ts T. destruct (typer_always_applies _ _ _ T) as (fos & F). exists fos. apply typer_applied. eauto. }
  cbn [In] in J.
  repeat (destruct J as [<-|J]; [cbn [io_names In] in I; repeat (destruct I as [<-|I]; [
    first [exists []; split; [reflexivity|split; [eapply K; vm_compute; reflexivity|split; [eapply K; vm_compute; reflexivity|]]];
             intros (i & i' & A & B & S1 & S2 & S3); vm_compute in A, B; first [discriminate A|discriminate B|injection A as <-; injection B as <-; first [discriminate S1|discriminate S2|discriminate S3]] |
           exists ["a"; "b"]; split; [reflexivity|split; [eapply K; vm_compute; reflexivity|split; [eapply K; vm_compute; reflexivity|]]];
             intros (i & i' & A & B & S1 & S2 & S3); vm_compute in A, B; first [discriminate A|discriminate B|injection A as <-; injection B as <-; first [discriminate S1|discriminate S2|discriminate S3]]]|]); destruct I|]). destruct J.
Qed.
Print Assumptions C75_io_needed.
(** mv tells one -t from two, but not two from three. *)
Example C75_targets_case :
  get_input_output_info shipped_dir (mkInv "mv" [Option_ "-t" "d"] ["a"]) <> None /\
  get_input_output_info shipped_dir (mkInv "mv" [Option_ "-t" "d"; Option_ "-t" "e"] ["a"]) = None /\
  same_targets (mkInv "mv" [Option_ "-t" "d"; Option_ "-t" "e"] ["a"]) (mkInv "mv" [Option_ "-t" "d"; Option_ "-t" "e"; Option_ "-t" "f"] ["a"]).
Proof. split; [vm_compute; discriminate|]. split; [vm_compute; reflexivity|]. intros _. reflexivity. Qed.
(** The operands of sed and tr matter: the first one, and the last one and whether it is the only one. *)
Theorem C75_operands_needed :
  (exists a b rest, get_parallelizability_info shipped_dir (mkInv "sed" [] (a :: rest)) <> get_parallelizability_info shipped_dir (mkInv "sed" [] (b :: rest))) /\
  (exists flags a b, get_parallelizability_info shipped_dir (mkInv "tr" flags [a]) <> get_parallelizability_info shipped_dir (mkInv "tr" flags [b])) /\
  (exists flags a b, get_parallelizability_info shipped_dir (mkInv "tr" flags [b]) <> get_parallelizability_info shipped_dir (mkInv "tr" flags [a; b])).
Proof.
  split; [exists "s/a/b/", "/a/d", []; vm_compute; discriminate|]. split.
  - exists [Flag "-d"], "a", "a\n". vm_compute. discriminate.
  - exists [Flag "-s"; Flag "-c"], "b", "a\n". vm_compute. discriminate.
Qed.
Print Assumptions C75_operands_needed.
(** Lines that differ in what does not matter *)
Example C75_case : exists inv inv',
  parse shipped_dir "grep -i -w -v -e x -m 3 f" = Ok inv /\ parse shipped_dir "grep -m 5 -e y -e z -x g" = Ok inv' /\
  same_uses (io_names (cmd_name inv)) inv inv' /\ same_uses (para_names (cmd_name inv)) inv inv' /\ classified shipped_dir inv' /\
  flag_option_list inv <> flag_option_list inv'.
Proof.
  eexists. eexists. split; [vm_compute; reflexivity|]. split; [vm_compute; reflexivity|].
  assert (U : forall names inv inv', forallb (fun n => Bool.eqb (mem n (map fo_name (flag_option_list inv))) (mem n (map fo_name (flag_option_list inv')))) names = true -> same_uses names inv inv').
  { intros names inv inv' H n I. rewrite forallb_forall in H. specialize (H n I). apply Bool.eqb_prop in H. rewrite !uses_map.
    assert (M : forall x l, mem x l = true <-> In x l).
    { intros x l. unfold mem. rewrite existsb_exists. split; [intros (y & A & B); apply String.eqb_eq in B as ->; exact A|intros A; exists x; split; [exact A|apply String.eqb_refl]]. }
    rewrite <- !M, H. tauto. }
  split; [apply U; vm_compute; reflexivity|]. split; [apply U; vm_compute; reflexivity|]. split; [|cbn; discriminate].
  match goal with |- classified _ ?i => assert (T : exists ts, get_flagoption_list_typer shipped_dir i = Ok ts) by (eexists; vm_compute; reflexivity) end.
  destruct T as (ts & T). destruct (typer_always_applies _ _ _ T) as (fos & F). exists fos. apply typer_applied. eauto.
Qed.
