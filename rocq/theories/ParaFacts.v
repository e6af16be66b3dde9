(** * Facts about parallelizability information *)
Require Import Verif.PyBase Verif.JsonData Verif.Parser Verif.Shlex Verif.Access Verif.IOGen Verif.IOVars Verif.Transformers
  Verif.ParaTypes Verif.ParaGen Verif.SpecParser Verif.SpecIO Verif.SpecPara Verif.ParserFacts Verif.IOFacts.
From Coq Require Import Lia.

Local Arguments mem : simpl never.
Local Arguments contains_one_of : simpl never.

(** ** Strings *)
Lemma append_assoc (a b c : string) : (a +++ b) +++ c = a +++ b +++ c.
Proof. induction a as [|x a IH]; cbn; [reflexivity|]. now rewrite IH. Qed.

Lemma prefix_starts sub : forall s, String.prefix sub s = true <-> starts_with sub s.
Proof.
  induction sub as [|c sub IH]; intros s.
  - split; [exists s; reflexivity|]. intros _. now destruct s.
  - destruct s as [|d s]; cbn.
    + split; [discriminate|]. intros [b E]. discriminate E.
    + destruct (ascii_dec c d) as [->|N].
      * rewrite IH. split; intros [b E]; exists b; [cbn; now f_equal|]. now injection E.
      * split; [discriminate|]. intros [b E]. cbn in E. congruence.
Qed.

Lemma index_spec sub : forall s,
  match String.index 0 sub s with
  | Some 0 => starts_with sub s
  | Some (S _) => occurs sub s /\ ~ starts_with sub s
  | None => ~ occurs sub s
  end.
Proof.
  induction s as [|c s IH].
  - destruct sub as [|d sub]; cbn.
    + exists "". reflexivity.
    + intros (a & b & E). destruct a; discriminate E.
  - cbn [String.index]. destruct (String.prefix sub (String c s)) eqn:P.
    + now apply prefix_starts.
    + assert (NS : ~ starts_with sub (String c s)) by (rewrite <- prefix_starts, P; discriminate).
      assert (O : occurs sub (String c s) <-> occurs sub s).
      { split.
        - intros (a & b & E). destruct a as [|d a]; cbn in E; [exfalso; apply NS; now exists b|].
          injection E as -> E. now exists a, b.
        - intros (a & b & ->). now exists (String c a), b. }
      destruct (String.index 0 sub s) as [[|n]|].
      * split; [apply O|exact NS]. destruct IH as [b ->]. now exists "", b.
      * split; [now apply O|exact NS].
      * now rewrite O.
Qed.

Lemma starts_occurs sub s : starts_with sub s -> occurs sub s.
Proof. intros [b ->]. now exists "", b. Qed.
Lemma str_in_iff sub s : str_in sub s = true <-> occurs sub s.
Proof.
  unfold str_in. pose proof (index_spec sub s) as H. destruct (String.index 0 sub s) as [[|n]|].
  - split; [intros _; now apply starts_occurs|reflexivity].
  - split; [intros _; apply H|reflexivity].
  - split; [discriminate|]. intros O. now elim H.
Qed.
Lemma find_positive_iff sub s : find_positive sub s = true <-> recognised sub s.
Proof.
  unfold find_positive, recognised. pose proof (index_spec sub s) as H. destruct (String.index 0 sub s) as [[|n]|].
  - split; [discriminate|]. intros [_ N]. now elim N.
  - now split.
  - split; [discriminate|]. intros [O _]. now elim H.
Qed.

Lemma bool_iff_false (b : bool) P : (b = true <-> P) -> (b = false <-> ~ P).
Proof. intros H. rewrite <- H. destruct b; split; congruence. Qed.

Lemma recognised_newline_iff s :
  contains_new_line s || contains_null_char s = true <-> recognised_newline s.
Proof.
  unfold contains_new_line, contains_null_char, recognised_newline.
  now rewrite orb_true_iff, !find_positive_iff.
Qed.

Lemma contains_any inv ns : contains_one_of inv ns = true <-> uses_any inv ns.
Proof. apply contains_iff. Qed.
Lemma contains_any_false inv ns : contains_one_of inv ns = false <-> ~ uses_any inv ns.
Proof. apply bool_iff_false, contains_any. Qed.

(** ** tr *)
Lemma last_shift {A} (l : list A) : forall x y, last (y :: l) x = last l y.
Proof.
  induction l as [|z l IH]; intros x y; [reflexivity|].
  change (last (y :: z :: l) x) with (last (z :: l) x). now rewrite (IH x z), (IH y z).
Qed.
Lemma last_cons {A} (l : list A) x : exists pre, x :: l = pre ++ [last l x].
Proof.
  revert x. induction l as [|y l IH]; intros x.
  - now exists [].
  - destruct (IH y) as [pre E]. exists (x :: pre).
    rewrite last_shift. cbn. now f_equal.
Qed.
Lemma acts_iff inv : operand_list inv <> [] -> exists b,
  does_last_set_effectively_contain_newline inv = Ok b /\ (b = true <-> acts_on_newline inv).
Proof.
  intros NE. unfold does_last_set_effectively_contain_newline.
  destruct (operand_list inv) as [|o l] eqn:E; [congruence|].
  set (f := contains_new_line (last l o) || contains_null_char (last l o)).
  assert (F : f = true <-> recognised_newline (last l o)) by apply recognised_newline_iff.
  pose proof (bool_iff_false _ _ F) as F'.
  destruct l as [|o' l'].
  - cbn [length Nat.eqb andb last] in *.
    destruct (contains_one_of inv ["-c"]) eqn:C.
    + apply contains1 in C. exists (negb f). split; [reflexivity|]. rewrite negb_true_iff, F'. split.
      * intros H. eapply acts_complement; eauto.
      * intros [set E' _ H|set E' H|pre set E' NP H]; rewrite E in E'.
        -- now injection E' as <-.
        -- now elim H.
        -- exfalso. destruct pre as [|? [|]]; [now apply NP| |]; discriminate E'.
    + apply contains1_false in C. exists f. split; [reflexivity|]. rewrite F. split.
      * intros H. eapply acts_single; eauto.
      * intros [set E' H|set E' _ H|pre set E' NP H]; rewrite E in E'.
        -- now elim C.
        -- now injection E' as <-.
        -- exfalso. destruct pre as [|? [|]]; [now apply NP| |]; discriminate E'.
  - cbn [length Nat.eqb andb]. exists f. split; [reflexivity|]. rewrite F.
    destruct (last_cons (o' :: l') o) as [pre P]. split.
    + intros H. eapply acts_last; [rewrite E; exact P| |exact H].
      intros ->. cbn in P. discriminate P.
    + intros [set E' H|set E' _ H|pre' set E' NP H]; rewrite E in E'; try discriminate E'.
      rewrite P in E'. apply app_inj_tail in E' as [_ ->]. exact H.
Qed.
Lemma acts_nonempty inv : acts_on_newline inv -> operand_list inv <> [].
Proof. intros [set E|set E|pre set E] Nil; rewrite Nil in E; try discriminate E. now destruct pre. Qed.

(** ** The table *)
Definition view (o : option para_info) : option (list parallelizer * bool) :=
  option_map (fun i => (parallelizer_list i, is_commutative i)) o.

Definition pgenerator_of (inv : invocation) : option pgen :=
  dict_find para_generator_classes (representation_of (cmd_name inv)).
Lemma info_gen dir inv g : pgenerator_of inv = Some g ->
  get_parallelizability_info dir inv = except_none (g dir inv new_para_info).
Proof. unfold pgenerator_of, get_parallelizability_info, dict_get. now intros ->. Qed.
Lemma info_nogen dir inv : pgenerator_of inv = None -> get_parallelizability_info dir inv = None.
Proof. unfold pgenerator_of, get_parallelizability_info, dict_get. now intros ->. Qed.

Lemma mem_iff x l : mem x l = true <-> In x l.
Proof.
  unfold mem. rewrite existsb_exists. split.
  - intros (y & I & E). apply String.eqb_eq in E. now subst.
  - intros I. exists x. split; [exact I|apply String.eqb_refl].
Qed.

Lemma pgenerator_dec inv :
  (In (cmd_name inv) para_commands /\ exists g, pgenerator_of inv = Some g) \/
  (~ In (cmd_name inv) para_commands /\ pgenerator_of inv = None).
Proof.
  unfold pgenerator_of, representation_of, dict_get_default.
  destruct (dict_find cmd_representation (cmd_name inv)) as [r|] eqn:D.
  - apply dict_find_In' in D. revert D. generalize (cmd_name inv) as n. intros n D. cbn [cmd_representation In] in D.
    repeat match goal with H : _ \/ _ |- _ => destruct H as [H|H] end; try contradiction;
      injection D as <- <-;
      first [left; split; [apply mem_iff; reflexivity|eexists; reflexivity]
            |right; split; [rewrite <- mem_iff; discriminate|reflexivity]].
  - right. split; [|reflexivity]. intros I. apply dict_find_None in D. apply D.
    clear D. revert I. generalize (cmd_name inv) as n. intros n I. cbn [para_commands In] in I.
    repeat match goal with H : _ \/ _ |- _ => destruct H as [H|H] end; try contradiction; subst;
      apply mem_iff; reflexivity.
Qed.

(** The mappers given by a plain command name *)
Lemma mapper_from_name dir n j impl : shlex_split n = Ok [n] ->
  loads dir n j -> make_mapper_spec_custom_from_string dir n impl = Ok (mkMapperSpec CUSTOM (Some n) (TCustom []) impl).
Proof.
  intros S L. unfold make_mapper_spec_custom_from_string, parse. rewrite S. cbn [bind].
  apply get_json_data_ok in L. rewrite L. reflexivity.
Qed.
Lemma mapper_from_name_none dir n impl : shlex_split n = Ok [n] ->
  (forall j, ~ loads dir n j) -> exists e, make_mapper_spec_custom_from_string dir n impl = Raise e.
Proof.
  intros S L. unfold make_mapper_spec_custom_from_string, parse. rewrite S. cbn [bind].
  destruct (get_json_data dir n) as [j|e] eqn:G.
  - apply get_json_data_ok in G. now elim (L j).
  - now exists e.
Qed.
Lemma loads_dec dir n : (exists j, loads dir n j) \/ (forall j, ~ loads dir n j).
Proof.
  destruct (get_json_data dir n) as [j|e] eqn:G.
  - left. exists j. now apply get_json_data_ok.
  - right. intros j L. apply get_json_data_ok in L. congruence.
Qed.

Ltac pgen_of H := unfold pgenerator_of; rewrite H; reflexivity.

Lemma view_sort dir inv i :
  view (except_none (pg_sort dir inv i)) =
  Some (parallelizer_list i ++ (if contains_one_of inv sort_excluded then [] else [chunks sort_merge]), true).
Proof. unfold pg_sort, sort_excluded. destruct (contains_one_of _ _); cbn; [now rewrite app_nil_r|reflexivity]. Qed.

Lemma first_conditions inv : match operand_list inv with
  | [] => exists e, (or_else (or_else (does_first_operand_start_with inv "-") (does_first_operand_start_with inv "s"))
                    (let! x := or_else (does_first_operand_contain inv "d") (does_first_operand_contain inv "q") in
                     Ok (negb x))) = Raise e
  | script :: _ => exists b, (or_else (or_else (does_first_operand_start_with inv "-") (does_first_operand_start_with inv "s"))
                    (let! x := or_else (does_first_operand_contain inv "d") (does_first_operand_contain inv "q") in
                     Ok (negb x))) = Ok b /\ (b = true <-> per_line_script script)
  end.
Proof.
  unfold does_first_operand_start_with, does_first_operand_contain, get_first_operand_name.
  destruct (operand_list inv) as [|script rest]; cbn [bind or_else]; [now eexists|].
  unfold or_else, bind. cbn [bind].
  set (p1 := String.prefix "-" script). set (p2 := String.prefix "s" script).
  set (i1 := str_in "d" script). set (i2 := str_in "q" script).
  assert (P1 : p1 = true <-> starts_with "-" script) by apply prefix_starts.
  assert (P2 : p2 = true <-> starts_with "s" script) by apply prefix_starts.
  assert (I1 : i1 = true <-> occurs "d" script) by apply str_in_iff.
  assert (I2 : i2 = true <-> occurs "q" script) by apply str_in_iff.
  exists (p1 || p2 || negb (i1 || i2)). split.
  - destruct p1, p2, i1, i2; reflexivity.
  - unfold per_line_script. rewrite <- P1, <- P2, <- I1, <- I2.
    destruct p1, p2, i1, i2; cbn; intuition congruence.
Qed.

Lemma view_grep dir inv :
  view (except_none (pg_grep dir inv new_para_info)) =
  Some (if contains_one_of inv ["-q"] ||
           (negb (contains_one_of inv ["-A"; "-B"; "-C"; "-m"]) &&
            contains_one_of inv ["-L"; "-l"; "-c"; "-n"; "-b"])
        then [] else stateless concat, false).
Proof.
  unfold pg_grep, grep_cases. destruct (contains_one_of inv ["-q"]) eqn:Q; [reflexivity|].
  destruct (contains_one_of inv ["-A"; "-B"; "-C"; "-m"]) eqn:A; [reflexivity|].
  cbn [negb andb orb].
  assert (E : contains_one_of inv ["-L"; "-l"; "-c"; "-n"; "-b"] =
              contains_one_of inv ["-L"; "-l"] || contains_one_of inv ["-c"] ||
              contains_one_of inv ["-n"] || contains_one_of inv ["-b"]).
  { apply eq_true_iff_eq. rewrite !orb_true_iff, !contains_any. unfold uses_any. cbn [In]. firstorder. }
  rewrite E. destruct (contains_one_of inv ["-L"; "-l"]), (contains_one_of inv ["-c"]),
    (contains_one_of inv ["-n"]), (contains_one_of inv ["-b"]); reflexivity.
Qed.

Lemma view_uniq dir inv :
  view (except_none (pg_uniq dir inv new_para_info)) =
  Some (if contains_one_of inv ["-d"; "-D"; "--all-repeated"] then []
        else if contains_one_of inv ["-c"]
        then stateless (AggString ADJ_LINES_FUNC "PLACEHOLDER:uniq_merge_count_uniq" false)
        else stateless adj_seq, false).
Proof. unfold pg_uniq. destruct (contains_one_of inv ["-d"; "-D"; "--all-repeated"]), (contains_one_of inv ["-c"]); reflexivity. Qed.

Lemma uses_any1 inv n : uses_any inv [n] <-> uses inv n.
Proof. unfold uses_any. cbn [In]. split; [intros (m & [<-|[]] & U); exact U|intros U; exists n; auto]. Qed.

Lemma annotated_view dir inv : annotated dir inv (view (get_parallelizability_info dir inv)).
Proof.
  destruct (pgenerator_dec inv) as [[I _]|[I G]].
  2:{ rewrite (info_nogen _ _ G). now apply an_unknown. }
  cbn [para_commands In] in I.
  repeat match goal with H : _ \/ _ |- _ => destruct H as [H|H] end; try contradiction; symmetry in I.
  - (* alt_bigrams_aux *)
    rewrite (info_gen dir inv pg_alt_bigrams_aux) by pgen_of I. unfold pg_alt_bigrams_aux.
    destruct (loads_dec dir "alt_bigrams_aux") as [[j L]|L].
    + rewrite (mapper_from_name _ _ j) by (exact L || reflexivity). now apply (an_alt_bigrams _ _ j).
    + destruct (mapper_from_name_none dir "alt_bigrams_aux" true eq_refl L) as [e ->].
      now apply an_alt_bigrams_none.
  - (* bigrams_aux *)
    rewrite (info_gen dir inv pg_bigrams_aux) by pgen_of I. unfold pg_bigrams_aux.
    destruct (loads_dec dir "bigram_aux_map") as [[j L]|L].
    + rewrite (mapper_from_name _ _ j) by (exact L || reflexivity). now apply (an_bigrams _ _ j).
    + destruct (mapper_from_name_none dir "bigram_aux_map" true eq_refl L) as [e ->].
      now apply an_bigrams_none.
  - rewrite (info_gen dir inv pg_stateless) by pgen_of I. apply an_stateless. rewrite I. apply mem_iff; reflexivity.
  - rewrite (info_gen dir inv pg_sort) by pgen_of I. rewrite view_sort. cbn [parallelizer_list new_para_info app].
    destruct (contains_one_of inv sort_excluded) eqn:E.
    + apply an_sort_excluded; [rewrite I; apply mem_iff; reflexivity|now apply contains_any].
    + apply an_sort; [rewrite I; apply mem_iff; reflexivity|now apply contains_any_false].
  - rewrite (info_gen dir inv pg_stateless) by pgen_of I. apply an_stateless. rewrite I. apply mem_iff; reflexivity.
  - rewrite (info_gen dir inv pg_stateless) by pgen_of I. apply an_stateless. rewrite I. apply mem_iff; reflexivity.
  - (* grep *)
    rewrite (info_gen dir inv pg_grep) by pgen_of I. rewrite view_grep.
    destruct (contains_one_of inv ["-q"]) eqn:Q; cbn [orb].
    + apply contains1 in Q. now apply an_grep_quiet.
    + apply contains1_false in Q.
      destruct (contains_one_of inv ["-A"; "-B"; "-C"; "-m"]) eqn:A; cbn [negb andb].
      * apply contains_any in A. apply an_grep; auto.
      * apply contains_any_false in A. destruct (contains_one_of inv ["-L"; _; _; _; _]) eqn:L.
        -- apply contains_any in L. now apply an_grep_whole_input.
        -- apply contains_any_false in L. apply an_grep; auto.
  - (* sed *)
    rewrite (info_gen dir inv pg_sed) by pgen_of I. unfold pg_sed.
    pose proof (first_conditions inv) as F. destruct (operand_list inv) as [|script rest] eqn:O.
    + destruct F as [e ->]. now apply an_sed_missing.
    + destruct F as (b & -> & B). cbn [bind]. destruct b.
      * eapply an_sed; eauto. now apply B.
      * eapply an_sed_not; eauto. rewrite <- B. discriminate.
  - rewrite (info_gen dir inv pg_set_diff) by pgen_of I. now apply an_set_diff.
  - rewrite (info_gen dir inv pg_sort) by pgen_of I. rewrite view_sort. cbn [parallelizer_list new_para_info app].
    destruct (contains_one_of inv sort_excluded) eqn:E.
    + apply an_sort_excluded; [rewrite I; apply mem_iff; reflexivity|now apply contains_any].
    + apply an_sort; [rewrite I; apply mem_iff; reflexivity|now apply contains_any_false].
  - rewrite (info_gen dir inv pg_test) by pgen_of I. apply an_test. rewrite I. apply mem_iff; reflexivity.
  - rewrite (info_gen dir inv pg_test) by pgen_of I. apply an_test. rewrite I. apply mem_iff; reflexivity.
  - (* tr *)
    rewrite (info_gen dir inv pg_tr) by pgen_of I. unfold pg_tr.
    assert (U : forall inv, uses_any inv ["-d"; "-s"] <-> uses inv "-d" \/ uses inv "-s").
    { intros x. unfold uses_any. cbn [In]. split.
      - intros (n & [<-|[<-|[]]] & V); auto.
      - intros [V|V]; eauto 6. }
    destruct (contains_one_of inv ["-d"]) eqn:D; [apply contains1 in D|apply contains1_false in D].
    + destruct (operand_list inv) as [|o l] eqn:O.
      * unfold does_last_set_effectively_contain_newline. rewrite O. cbn.
        apply an_tr_missing; auto. apply U; auto.
      * assert (NE : operand_list inv <> []) by (rewrite O; discriminate).
        destruct (acts_iff inv NE) as (b & -> & B). cbn [and_then bind].
        destruct (contains_one_of inv ["-s"]), b; cbn [bind];
          first [apply an_tr_delete; auto; now apply B
                |apply an_tr_not_newline; auto; rewrite <- B; discriminate].
    + cbn [and_then bind].
      destruct (contains_one_of inv ["-s"]) eqn:S; [apply contains1 in S|apply contains1_false in S].
      * destruct (operand_list inv) as [|o l] eqn:O.
        -- unfold does_last_set_effectively_contain_newline. rewrite O. cbn.
           apply an_tr_missing; auto. apply U; auto.
        -- assert (NE : operand_list inv <> []) by (rewrite O; discriminate).
           destruct (acts_iff inv NE) as (b & -> & B). cbn [bind]. destruct b.
           ++ apply an_tr_squeeze; auto. now apply B.
           ++ apply an_tr_not_newline; auto. rewrite <- B. discriminate.
      * apply an_tr_other; auto. rewrite U. tauto.
  - (* uniq *)
    rewrite (info_gen dir inv pg_uniq) by pgen_of I. rewrite view_uniq.
    destruct (contains_one_of inv ["-d"; _; _]) eqn:D; [apply contains_any in D|apply contains_any_false in D].
    + now apply an_uniq_repeated.
    + destruct (contains_one_of inv ["-c"]) eqn:C; [apply contains1 in C|apply contains1_false in C].
      * now apply an_uniq_count.
      * apply an_uniq; auto. unfold uses_any in *. cbn [In] in *. intros (n & [<-|[<-|[<-|[<-|[]]]]] & V); eauto 8.
  - rewrite (info_gen dir inv pg_stateless) by pgen_of I. apply an_stateless. rewrite I. apply mem_iff; reflexivity.
Qed.

(** The table is functional. *)
Lemma uses_any_incl inv a b : (forall n, In n a -> In n b) -> uses_any inv a -> uses_any inv b.
Proof. intros H (n & I & U). exists n. auto. Qed.

Lemma annotated_fun dir inv o o' : annotated dir inv o -> annotated dir inv o' -> o = o'.
Proof.
  intros H H'.
  assert (P : forall n, cmd_name inv = n -> mem n para_commands = true -> In (cmd_name inv) para_commands).
  { intros n -> M. now apply mem_iff. }
  Ltac spl := repeat match goal with
    | H : In (cmd_name _) (_ :: _) |- _ => cbn [In] in H; repeat (destruct H as [H|H]; [symmetry in H|]); try contradiction
    end.
  destruct H; spl; destruct H'; spl; try reflexivity; try congruence;
    try (exfalso; match goal with N : ~ In (cmd_name inv) para_commands |- _ => apply N; eapply P; [eassumption|reflexivity] end);
    try (exfalso; match goal with
         | N : ~ uses_any inv ?a, U : uses_any inv ?b |- _ =>
             apply N; revert U; apply uses_any_incl; cbn [In]; tauto
         | N : ~ uses inv ?a, U : uses inv ?b |- _ => now apply N
         | N : ~ uses_any inv ?a, U : uses inv ?b |- _ => apply N; exists b; split; [apply mem_iff; reflexivity|exact U]
         | N : ~ acts_on_newline inv, U : acts_on_newline inv |- _ => now apply N
         | N : forall j, ~ loads dir ?n j, L : loads dir ?n _ |- _ => now elim (N _ L)
         | E : operand_list inv = ?s :: _, E' : operand_list inv = ?s' :: _, N : ~ per_line_script ?s, M : per_line_script ?s' |- _ =>
             rewrite E in E'; injection E' as <- <-; now apply N
         | E : operand_list inv = [], A : acts_on_newline inv |- _ => now apply (acts_nonempty _ A)
         end).
  all: exfalso; tauto.
Qed.

Lemma annotated_iff dir inv o : annotated dir inv o <-> view (get_parallelizability_info dir inv) = o.
Proof.
  split.
  - intros H. eapply annotated_fun; [apply annotated_view|exact H].
  - intros <-. apply annotated_view.
Qed.
