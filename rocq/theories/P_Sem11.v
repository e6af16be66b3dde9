(** * What grep is meant to get (C79)
    [prepared], [pairs_ok], [pairs_wrong], [keep_longer], [keep_shorter], [sum_up],
    [with_offsets] and [numbers_plainly] are in SpecSem11.v. *)
From Coq Require Import Lia.
Require Import Verif.PyBase Verif.JsonData Verif.Parser Verif.Access Verif.IOInfo Verif.IOGen Verif.IOVars
  Verif.Transformers Verif.ParaTypes Verif.ParaGen Verif.MapperAgg Verif.SpecLists Verif.SpecIO Verif.SpecVars Verif.SpecPara
  Verif.ParserFacts Verif.ParaFacts Verif.ParaProps Verif.ShippedData Verif.P_Para Verif.SpecSem Verif.SemFacts Verif.SemRun Verif.SemProps Verif.SemSystem
  Verif.P_Sem Verif.SemProps2 Verif.SemProps5 Verif.P_Sem6 Verif.SpecSem10 Verif.SemProps10 Verif.SpecSem11 Verif.SemProps11.

(** ** What is prepared *)
Definition longer_spec : agg_spec := AggString CUSTOM_2_ARY "PLACEHOLDER:merge_keeping_longer_output" false.
Definition sum_spec : agg_spec := AggString CUSTOM_2_ARY "PLACEHOLDER:sum_indiv_results_up" false.
Definition number_plan (cmd : string) (i : add_info) : parallelizer :=
  mkPar CONSEC_CHUNKS (mkMapperSpec CUSTOM (Some cmd) TSeq false) SpecPara.concat i 0.
Definition grep_context : list string := ["-A"; "-B"; "-C"; "-m"].
Lemma one_any inv n : uses_any inv [n] <-> uses inv n.
Proof. unfold uses_any. split; [intros (m & [<-|[]] & U); exact U|intros U; exists n; split; [now left|exact U]]. Qed.
Lemma grep_atoms inv :
  (uses_any inv ["-L"; "-l"; "-c"; "-n"; "-b"] <-> uses_any inv ["-L"; "-l"] \/ uses inv "-c" \/ uses inv "-n" \/ uses inv "-b") /\
  (uses_any inv ["-L"; "-l"; "-c"] <-> uses_any inv ["-L"; "-l"] \/ uses inv "-c") /\ True.
Proof.
  assert (A : forall l n, uses_any inv (n :: l) <-> uses inv n \/ uses_any inv l).
  { intros l n. unfold uses_any. split; [intros (m & [<-|I] & U); [auto|right; eauto]|intros [U|(m & I & U)]; [exists n; split; [now left|auto]|exists m; split; [now right|auto]]]. }
  assert (A0 : uses_any inv [] <-> False) by (split; [intros (m & [] & _)|tauto]). rewrite !A, A0. tauto.
Qed.
Lemma one_plan m a i p : (exists m' a' i', Ok (m, a, i) = Ok (m', a', i') /\ make_parallelizer CONSEC_CHUNKS m' a' i' 0 = Ok p) <->
  p = mkPar CONSEC_CHUNKS (match m with Some m => m | None => seq_mapper end) (match a with Some a => a | None => SpecPara.concat end)
        (match i with Some i => i | None => NO_ADD_INPUT end) 0.
Proof.
  split.
  - intros (m' & a' & i' & X & Y). injection X as <- <- <-. destruct m, a, i; cbn in Y; now injection Y as <-.
  - intros ->. do 3 eexists. split; [reflexivity|]. now destruct m, a, i.
Qed.
Theorem C79_prepared : forall inv p, prepared inv p <->
  (p = chunks_with SpecPara.concat /\ (uses_any inv grep_context \/ ~ uses_any inv ["-L"; "-l"; "-c"; "-n"; "-b"])) \/
  (~ uses_any inv grep_context /\
    ((p = chunks_with longer_spec /\ uses_any inv ["-L"; "-l"]) \/
     (p = chunks_with sum_spec /\ ~ uses_any inv ["-L"; "-l"] /\ uses inv "-c") \/
     (~ uses_any inv ["-L"; "-l"; "-c"] /\
       ((p = number_plan "PLACEHOLDER:grep_add_line_number_and_byte_offset" LINE_NUM_AND_BYTE_OFFSET /\ uses inv "-n" /\ uses inv "-b") \/
        (p = number_plan "PLACEHOLDER:grep_add_line_number_offset" LINE_NUM_OFFSET /\ uses inv "-n" /\ ~ uses inv "-b") \/
        (p = number_plan "PLACEHOLDER:grep_add_byte_offset" BYTE_OFFSET /\ ~ uses inv "-n" /\ uses inv "-b"))))).
Proof.
  intros inv p. destruct (grep_atoms inv) as (A1 & A2 & _). rewrite A1, A2. clear A1 A2.
  unfold prepared, grep_cases. fold grep_context.
  destruct (contains_one_of inv grep_context) eqn:E1; [apply contains_any in E1|apply contains_any_false in E1]; cbn [negb].
  { rewrite one_plan. match goal with |- p = ?k <-> _ => change k with (chunks_with SpecPara.concat) end. tauto. }
  destruct (contains_one_of inv ["-L"; "-l"]) eqn:E2; [apply contains_any in E2|apply contains_any_false in E2].
  { rewrite one_plan. match goal with |- p = ?k <-> _ => change k with (chunks_with longer_spec) end. tauto. }
  destruct (contains_one_of inv ["-c"]) eqn:E3; [apply contains_any in E3|apply contains_any_false in E3]; rewrite one_any in E3.
  { rewrite one_plan. match goal with |- p = ?k <-> _ => change k with (chunks_with sum_spec) end. tauto. }
  destruct (contains_one_of inv ["-n"]) eqn:E4; [apply contains_any in E4|apply contains_any_false in E4]; rewrite one_any in E4;
  (destruct (contains_one_of inv ["-b"]) eqn:E5; [apply contains_any in E5|apply contains_any_false in E5]; rewrite one_any in E5);
  cbn [andb bind make_mapper_spec_custom new_mapper_spec transformer_or_seq]; rewrite one_plan;
  match goal with |- p = ?k <-> _ => first
    [ change k with (chunks_with SpecPara.concat)
    | change k with (number_plan "PLACEHOLDER:grep_add_line_number_and_byte_offset" LINE_NUM_AND_BYTE_OFFSET)
    | change k with (number_plan "PLACEHOLDER:grep_add_line_number_offset" LINE_NUM_OFFSET)
    | change k with (number_plan "PLACEHOLDER:grep_add_byte_offset" BYTE_OFFSET) ] end; tauto.
Qed.
Print Assumptions C79_prepared.
Example C79_prepared_case : exists inv, parse shipped_dir "grep -n -b -v x" = Ok inv /\
  prepared inv (number_plan "PLACEHOLDER:grep_add_line_number_and_byte_offset" LINE_NUM_AND_BYTE_OFFSET).
Proof. eexists. split; [vm_compute; reflexivity|]. do 3 eexists. split; vm_compute; reflexivity. Qed.
(** "check can be removed once all are implemented!" (ParallelizabilityInfoGeneratorGrep.py 60):
    without the check the generator fails exactly with -L, -l and -c, whatever is implemented: the
    constructor allows no function of two results for the plain round robin splitter
    (Parallelizer.py 46-50).  Then there is no information at all. *)
Theorem C79_unchecked : forall dir inv i,
  (~ uses inv "-q" /\ ~ uses_any inv grep_context /\ uses_any inv ["-L"; "-l"; "-c"] ->
   pg_grep_unchecked dir inv i = Raise AssertionError /\ except_none (pg_grep_unchecked dir inv i) = None) /\
  (~ (~ uses inv "-q" /\ ~ uses_any inv grep_context /\ uses_any inv ["-L"; "-l"; "-c"]) ->
   exists i', pg_grep_unchecked dir inv i = Ok i').
Proof.
  intros dir inv i. destruct (grep_atoms inv) as (_ & A & _). rewrite A. clear A.
  unfold pg_grep_unchecked, grep_cases. fold grep_context.
  destruct (contains_one_of inv ["-q"]) eqn:E0; [apply contains_any in E0|apply contains_any_false in E0]; rewrite one_any in E0; cbn [negb].
  { split; [tauto|eauto]. }
  destruct (contains_one_of inv grep_context) eqn:E1; [apply contains_any in E1|apply contains_any_false in E1]; cbn [negb].
  { split; [tauto|intros _; eexists; reflexivity]. }
  destruct (contains_one_of inv ["-L"; "-l"]) eqn:E2; [apply contains_any in E2|apply contains_any_false in E2].
  { split; [split; reflexivity|tauto]. }
  destruct (contains_one_of inv ["-c"]) eqn:E3; [apply contains_any in E3|apply contains_any_false in E3]; rewrite one_any in E3.
  { split; [split; reflexivity|tauto]. }
  split; [tauto|intros _].
  destruct (contains_one_of inv ["-n"]), (contains_one_of inv ["-b"]); eexists; reflexivity.
Qed.
Print Assumptions C79_unchecked.
Example C79_unchecked_case : exists inv, parse shipped_dir "grep -c x" = Ok inv /\ pg_grep_unchecked shipped_dir inv new_para_info = Raise AssertionError.
Proof. eexists. split; vm_compute; reflexivity. Qed.
(** Nor does it help to implement the functions: the constructor looks at the kind only. *)
Theorem C79_kind : forall m a i n, agg_kind_of a = CUSTOM_2_ARY \/ agg_kind_of a = CUSTOM_N_ARY ->
  make_parallelizer ROUND_ROBIN_PLAIN m (Some a) i n = Raise AssertionError /\
  exists p, make_parallelizer CONSEC_CHUNKS m (Some a) i n = Ok p.
Proof.
  intros m a i n K. unfold make_parallelizer, new_parallelizer, round_robin_aggregator. cbn [make_mapper_spec_seq new_mapper_spec bind is_splitter_round_robin negb orb].
  split; [destruct K as [-> | ->]; reflexivity|eexists; reflexivity].
Qed.
Print Assumptions C79_kind.

(** ** grep runs *)
Definition text_or_a (inv : invocation) (input : string) : Prop := is_text input \/ uses inv "-a".
Lemma text_part inv : part_of (text_or_a inv).
Proof.
  intros a b [A|A]; [|split; now right]. unfold is_text in A. rewrite has_char_app in A. apply orb_false_iff in A. split; left; unfold is_text; tauto.
Qed.
Lemma grep_runs text inv c s o B : parse shipped_dir text = Ok inv -> cmd_name inv = "grep" -> invocation_of inv c ->
  ~ uses_any inv ["-r"; "-R"; "-H"] -> is_grep o B -> forall sd x, text_or_a inv x ->
  B sd (v_cmd c) (map (wflag_of c s) (v_flags c)) (map (word_of c s) (v_ops c)) [x] = grep_output o (map (wflag_of c s) (v_flags c)) (map (word_of c s) (v_ops c)) x.
Proof.
  intros PA C IN U GB sd x QX. assert (CN : v_cmd c = "grep") by (destruct IN as (-> & _); exact C). rewrite CN, GB; [reflexivity| | |].
  - eapply parse_known; eauto; [rewrite C; left; vm_compute; reflexivity|vm_compute; reflexivity].
  - now apply (given_unused inv).
  - destruct QX as [QX|QX]; [now left|right]. apply given_iff. exists "-a". split; [now left|]. rewrite (names_eq inv c s IN). now apply uses_in.
Qed.
Lemma one_used inv c s n : invocation_of inv c -> uses inv n -> given (map (wflag_of c s) (v_flags c)) [n] = true.
Proof. intros IN U. apply (given_uses inv); [exact IN|]. exists n. split; [now left|exact U]. Qed.
Lemma one_unused inv c s n : invocation_of inv c -> ~ uses inv n -> given (map (wflag_of c s) (v_flags c)) [n] = false.
Proof. intros IN U. apply (given_unused inv); [exact IN|]. intros (m & [<-|[]] & X). contradiction. Qed.
(** The limit given by --max-count: the last one counts. *)
Definition limited (c : civ) (n : option nat) : Prop := forall s, last_number (map (wflag_of c s) (v_flags c)) ["-m"; "--max-count"] = n.
Lemma limit_same c s s' : limit (map (wflag_of c s) (v_flags c)) = limit (map (wflag_of c s') (v_flags c)).
Proof.
  unfold limit, last_number. generalize (@None nat). induction (v_flags c) as [|f fl IH]; intros r; [reflexivity|]. cbn [map fold_left].
  assert (E : forall x, match word_of c s x, word_of c s' x with WText t, WText t' => t = t' | WText _, _ => False | _, WText _ => False | _, _ => True end).
  { intros [|z|t|q]; cbn; auto. destruct (v_acc c z) as [[]|]; auto. }
  destruct f as [n|n x|n x]; cbn [wflag_of]; [apply IH| |]; specialize (E x); destruct (word_of c s x), (word_of c s' x); try contradiction; try subst; apply IH.
Qed.
(** What decides for -l and -L *)
Definition cuts_right (inv : invocation) (c : civ) : Prop := uses_any inv ["--help"; "-V"] \/ ~ uses inv "-z" \/ limited c (Some 0).
Lemma cuts_given inv c s : invocation_of inv c -> cuts_right inv c <->
  given (map (wflag_of c s) (v_flags c)) ["--help"; "-V"] = true \/ given (map (wflag_of c s) (v_flags c)) ["-z"] = false \/ limit (map (wflag_of c s) (v_flags c)) = Some 0.
Proof.
  intros IN. unfold cuts_right. rewrite <- (given_uses inv c s) by exact IN. split; (intros [X|[X|X]]; [now left|right; left|right; right]).
  - now apply (one_unused inv).
  - apply X.
  - intros U. rewrite (one_used inv c s "-z" IN U) in X. discriminate.
  - intros s'. fold (limit (map (wflag_of c s') (v_flags c))). now rewrite (limit_same c s' s).
Qed.
Lemma flag_dec inv n : {uses inv n} + {~ uses inv n}.
Proof. destruct (contains_one_of inv [n]) eqn:E; [left|right]; [apply contains_any in E as (m & [<-|[]] & U); exact U|apply contains_any_false in E; intros U; apply E; exists n; split; [now left|exact U]]. Qed.

Lemma grep_pairs_wrong text inv c v s o B a b k f :
  parse shipped_dir text = Ok inv -> cmd_name inv = "grep" -> invocation_of inv c -> reads_one c v -> tight c -> ~ uses_any inv ["-r"; "-R"; "-H"] ->
  is_grep o B -> ends_line a -> is_text (a +++ b) ->
  (let F := grep_output o (map (wflag_of c s) (v_flags c)) (map (word_of c s) (v_ops c)) in f (F a) (F b) <> F (a +++ b)) ->
  pairs_wrong B (chunks_with k) c v f (text_or_a inv).
Proof.
  intros PA C IN R T GR GB EA TX NE. apply (pairs_differs _ _ _ _ _ (grep_output o (map (wflag_of c s) (v_flags c)) (map (word_of c s) (v_ops c))) s a b); auto.
  - now left.
  - intros sd x I. apply (grep_runs text inv c s _ _ PA C IN GR GB). left. unfold is_text in *. rewrite has_char_app in TX. apply orb_false_iff in TX as (X & Y).
    destruct I as [<-|[<-|[<-|[]]]]; auto. now rewrite has_char_app, X, Y.
Qed.
Lemma prepared_one inv p q : prepared inv p -> prepared inv q -> p = q.
Proof. intros (m & a & i & X & Y) (m' & a' & i' & X' & Y'). rewrite X in X'. injection X' as <- <- <-. congruence. Qed.

(** ** -l: keeping the longer output *)
Theorem C79_longer_iff : forall text inv p c v,
  parse shipped_dir text = Ok inv -> cmd_name inv = "grep" -> prepared inv p -> ~ uses_any inv grep_context -> uses inv "-l" ->
  invocation_of inv c -> reads_one c v -> tight c -> ~ uses_any inv ["-q"; "-L"; "-r"; "-R"; "-H"] ->
  (forall B o, is_grep o B -> pairs_ok B p c v keep_longer (text_or_a inv)) <-> cuts_right inv c.
Proof.
  intros text inv p c v PA C PR NC UL IN R T NU.
  assert (E : p = chunks_with longer_spec).
  { apply (prepared_one inv); [exact PR|]. apply C79_prepared. right. split; [exact NC|]. left. split; [reflexivity|]. exists "-l". split; [cbn; auto|exact UL]. }
  subst p.
  assert (GQ : forall s, given (map (wflag_of c s) (v_flags c)) ["-q"] = false).
  { intros s. apply (given_unused inv); [exact IN|]. apply (unused_sub inv _ _ NU). intros n; cbn; tauto. }
  assert (GR : ~ uses_any inv ["-r"; "-R"; "-H"]) by (apply (unused_sub inv _ _ NU); intros n; cbn; tauto).
  pose proof (fun s => one_used inv c s "-l" IN UL) as GL. split.
  - intros OK. set (s := fun _ : Z => ""). apply (cuts_given inv c s IN). set (fl := map (wflag_of c s) (v_flags c)).
    destruct (given fl ["--help"; "-V"]) eqn:H; [now left|]. destruct (given fl ["-z"]) eqn:Z; [|auto]. right. right.
    assert (D : {limit fl = Some 0} + {limit fl <> Some 0}) by (repeat decide equality). destruct D as [D|D]; [exact D|]. exfalso.
    apply (pairs_not_wrong _ _ _ _ _ _ (OK _ _ (grep_system_is (choosy (String.eqb two_lines))))).
    apply (grep_pairs_wrong text inv c v s (choosy (String.eqb two_lines)) _ (String "a" (String newline "")) "b"); auto; [apply grep_system_is|right; now exists "a"|reflexivity|].
    apply choosy_files; auto; try apply GQ; apply GL.
  - intros CR B o GB.
    apply (pairs_sound B longer_spec c v keep_longer (fun s => grep_output o (map (wflag_of c s) (v_flags c)) (map (word_of c s) (v_ops c))) _ R (text_part inv)).
    + intros s a b EA _. apply files_pairs; auto. now apply (cuts_given inv c s IN).
    + intros s a _. now apply files_nil.
    + intros s. now apply (grep_runs text inv).
Qed.
Print Assumptions C79_longer_iff.
(** ** -L: the plan asks for the longer output too
    "if there was no match in one part, the filename will propagate" (ParallelizabilityInfoGeneratorGrep.py
    38): this is what happens and not what grep does, for every grep as soon as there are a selected
    and another line. *)
Theorem C79_longer_refuted : forall text inv p c v s o B x y,
  parse shipped_dir text = Ok inv -> cmd_name inv = "grep" -> prepared inv p -> ~ uses_any inv grep_context -> uses inv "-L" ->
  invocation_of inv c -> reads_one c v -> tight c -> ~ uses_any inv ["-q"; "-l"; "-r"; "-R"; "-H"; "-z"; "--help"; "-V"; "--max-count"] -> is_grep o B ->
  let fl := map (wflag_of c s) (v_flags c) in let ops := map (word_of c s) (v_ops c) in
  grep_label o fl <> "" -> Forall (fun l => has_char newline l = false /\ is_text l) [x; y] ->
  xorb (given fl ["-v"]) (grep_match o fl ops x) = true -> xorb (given fl ["-v"]) (grep_match o fl ops y) = false ->
  p_aggregator p = longer_spec /\ pairs_wrong B p c v keep_longer (text_or_a inv).
Proof.
  intros text inv p c v s o B x y PA C PR NC UL IN R T NU GB fl ops LB FX SX SY.
  assert (E : p = chunks_with longer_spec).
  { apply (prepared_one inv); [exact PR|]. apply C79_prepared. right. split; [exact NC|]. left. split; [reflexivity|]. exists "-L". split; [cbn; auto|exact UL]. }
  subst p. split; [reflexivity|].
  assert (GR : ~ uses_any inv ["-r"; "-R"; "-H"]) by (apply (unused_sub inv _ _ NU); intros n; cbn; tauto).
  assert (G : forall names, incl names ["-q"; "-l"; "-r"; "-R"; "-H"; "-z"; "--help"; "-V"; "--max-count"] -> given fl names = false).
  { intros names I. apply (given_unused inv); [exact IN|]. exact (unused_sub inv _ _ NU I). }
  inversion FX as [|? ? (X1 & X2) FY]; subst. inversion FY as [|? ? (Y1 & Y2) _]; subst.
  assert (LI : limit fl = None).
  { apply last_number_none. apply (given_unused inv); [exact IN|]. intros (n & [<-|[<-|[]]] & U); [apply NC; exists "-m"|apply NU; exists "--max-count"]; (split; [cbn; tauto|exact U]). }
  apply (grep_pairs_wrong text inv c v s o B (x +++ String newline "") (y +++ String newline "")); auto.
  - right. now exists x.
  - unfold is_text in *. rewrite !has_char_app, X2, Y2. reflexivity.
  - cbv zeta. fold fl ops. rewrite !output_without by (try (apply G; intros n; cbn; tauto); apply (one_used inv); auto).
    unfold separator. rewrite (G ["-z"]), LI by (intros n; cbn; tauto). rewrite append_assoc. cbn [String.append].
    rewrite !records_terminated_one by assumption. cbn [records map existsb]. unfold selects. rewrite SX, SY. cbn [orb]. rewrite longer_nil_l. exact LB.
Qed.
Print Assumptions C79_longer_refuted.
(** The shorter one is what is needed. *)
Theorem C79_shorter_iff : forall text inv p c v,
  parse shipped_dir text = Ok inv -> cmd_name inv = "grep" -> prepared inv p -> ~ uses_any inv grep_context -> uses inv "-L" ->
  invocation_of inv c -> reads_one c v -> tight c -> ~ uses_any inv ["-q"; "-l"; "-r"; "-R"; "-H"] ->
  (forall B o, is_grep o B -> pairs_ok B p c v keep_shorter (text_or_a inv)) <-> cuts_right inv c.
Proof.
  intros text inv p c v PA C PR NC UL IN R T NU.
  assert (E : p = chunks_with longer_spec).
  { apply (prepared_one inv); [exact PR|]. apply C79_prepared. right. split; [exact NC|]. left. split; [reflexivity|]. exists "-L". split; [cbn; auto|exact UL]. }
  subst p.
  assert (G : forall s names, incl names ["-q"; "-l"; "-r"; "-R"; "-H"] -> given (map (wflag_of c s) (v_flags c)) names = false).
  { intros s names I. apply (given_unused inv); [exact IN|]. exact (unused_sub inv _ _ NU I). }
  assert (GR : ~ uses_any inv ["-r"; "-R"; "-H"]) by (apply (unused_sub inv _ _ NU); intros n; cbn; tauto).
  pose proof (fun s => one_used inv c s "-L" IN UL) as GL. split.
  - intros OK. set (s := fun _ : Z => ""). apply (cuts_given inv c s IN). set (fl := map (wflag_of c s) (v_flags c)).
    destruct (given fl ["--help"; "-V"]) eqn:H; [now left|]. destruct (given fl ["-z"]) eqn:Z; [|auto]. right. right.
    assert (D : {limit fl = Some 0} + {limit fl <> Some 0}) by (repeat decide equality). destruct D as [D|D]; [exact D|]. exfalso.
    apply (pairs_not_wrong _ _ _ _ _ _ (OK _ _ (grep_system_is (choosy (String.eqb two_lines))))).
    apply (grep_pairs_wrong text inv c v s (choosy (String.eqb two_lines)) _ (String "a" (String newline "")) "b"); auto; [apply grep_system_is|right; now exists "a"|reflexivity|].
    apply choosy_without; auto; try (apply G; intros n; cbn; tauto); apply GL.
  - intros CR B o GB.
    apply (pairs_sound B longer_spec c v keep_shorter (fun s => grep_output o (map (wflag_of c s) (v_flags c)) (map (word_of c s) (v_ops c))) _ R (text_part inv)).
    + intros s a b EA _. apply without_pairs; auto; [apply G; intros n; cbn; tauto|apply G; intros n; cbn; tauto|]. now apply (cuts_given inv c s IN).
    + intros s a _. apply without_nil; auto; apply G; intros n; cbn; tauto.
    + intros s. now apply (grep_runs text inv).
Qed.
Print Assumptions C79_shorter_iff.
(** ** -c: adding up *)
Theorem C79_sum_iff : forall text inv p c v,
  parse shipped_dir text = Ok inv -> cmd_name inv = "grep" -> prepared inv p -> ~ uses_any inv grep_context -> uses inv "-c" ->
  invocation_of inv c -> reads_one c v -> tight c -> ~ uses_any inv ["-q"; "-l"; "-L"; "-r"; "-R"; "-H"] ->
  (forall B o, is_grep o B -> counts_plainly o -> pairs_ok B p c v sum_up (text_or_a inv)) <->
  ~ uses_any inv ["--help"; "-V"] /\ ((~ uses inv "-z" /\ limited c None) \/ limited c (Some 0)).
Proof.
  intros text inv p c v PA C PR NC UC IN R T NU.
  assert (E : p = chunks_with sum_spec).
  { apply (prepared_one inv); [exact PR|]. apply C79_prepared. right. split; [exact NC|]. right. left. split; [reflexivity|]. split; [|exact UC].
    apply (unused_sub inv _ _ NU). intros n; cbn; tauto. }
  subst p.
  assert (G : forall s names, incl names ["-q"; "-l"; "-L"; "-r"; "-R"; "-H"] -> given (map (wflag_of c s) (v_flags c)) names = false).
  { intros s names I. apply (given_unused inv); [exact IN|]. exact (unused_sub inv _ _ NU I). }
  assert (GR : ~ uses_any inv ["-r"; "-R"; "-H"]) by (apply (unused_sub inv _ _ NU); intros n; cbn; tauto).
  pose proof (fun s => one_used inv c s "-c" IN UC) as GC.
  assert (LS : forall s n, limited c n <-> limit (map (wflag_of c s) (v_flags c)) = n).
  { intros s n. split; [intros L; apply L|]. intros L s'. fold (limit (map (wflag_of c s') (v_flags c))). now rewrite (limit_same c s' s). }
  split.
  - intros OK. set (s := fun _ : Z => ""). rewrite !(LS s). set (fl := map (wflag_of c s) (v_flags c)).
    assert (D : given fl ["--help"; "-V"] = false /\ ((given fl ["-z"] = false /\ limit fl = None) \/ limit fl = Some 0) \/
      ~ (given fl ["--help"; "-V"] = false /\ ((given fl ["-z"] = false /\ limit fl = None) \/ limit fl = Some 0))).
    { destruct (given fl ["--help"; "-V"]), (given fl ["-z"]), (limit fl) as [[|n]|]; try (left; tauto); right; intuition discriminate. }
    destruct D as [(D1 & D2)|D].
    + split; [intros U; apply (given_uses inv c s _ IN) in U; fold fl in U; congruence|]. destruct D2 as [(D2 & D3)|D2]; [left|now right].
      split; [intros U; apply (one_used inv c s "-z" IN) in U; fold fl in U; congruence|exact D3].
    + exfalso. destruct (choosy_count fl (map (word_of c s) (v_ops c))) as (o & a & b & P & EA & TX & W);
        try (apply G; intros n; cbn; tauto); [apply GC|exact D|].
      apply (pairs_not_wrong _ _ _ _ _ _ (OK _ _ (grep_system_is o) P)). now apply (grep_pairs_wrong text inv c v s o _ a b); auto; apply grep_system_is.
  - intros (NH & CR) B o GB P.
    assert (H : forall s, given (map (wflag_of c s) (v_flags c)) ["--help"; "-V"] = false) by (intros s; now apply (given_unused inv)).
    apply (pairs_sound B sum_spec c v sum_up (fun s => grep_output o (map (wflag_of c s) (v_flags c)) (map (word_of c s) (v_ops c))) _ R (text_part inv)).
    + intros s a b EA _. apply count_pairs; auto; try (apply G; intros n; cbn; tauto).
      destruct CR as [(Z & L)|L]; [left; split; [now apply (one_unused inv)|apply L]|right; apply L].
    + intros s a _. apply count_nil; auto; apply G; intros n; cbn; tauto.
    + intros s. now apply (grep_runs text inv).
Qed.
Print Assumptions C79_sum_iff.

Definition grep_l : civ := filter_civ "grep" [FFlag "-l"] [PArg "x"].
Definition grep_L : civ := filter_civ "grep" [FFlag "-L"] [PArg "x"].
Definition grep_c : civ := filter_civ "grep" [FFlag "-c"; FFlag "-v"] [PArg "x"].
Ltac unused := intros (n & J & U); apply uses_in in U; cbn in J, U; intuition subst; discriminate.
Example C79_pairs_case : exists l c,
  parse shipped_dir "grep -l x" = Ok l /\ parse shipped_dir "grep -cv x" = Ok c /\
  (forall B o, is_grep o B -> pairs_ok B (chunks_with longer_spec) grep_l 1 keep_longer (text_or_a l)) /\
  (forall B o, is_grep o B -> counts_plainly o -> pairs_ok B (chunks_with sum_spec) grep_c 1 sum_up (text_or_a c)).
Proof.
  assert (P1 : parse shipped_dir "grep -l x" = Ok (mkInv "grep" [Flag "-l"] ["x"])) by (vm_compute; reflexivity).
  assert (P2 : parse shipped_dir "grep -cv x" = Ok (mkInv "grep" [Flag "-c"; Flag "-v"] ["x"])) by (vm_compute; reflexivity).
  do 2 eexists. split; [exact P1|]. split; [exact P2|]. split.
  - apply (C79_longer_iff _ _ (chunks_with longer_spec) grep_l 1 P1 eq_refl).
    + do 3 eexists. split; vm_compute; reflexivity.
    + unused.
    + apply uses_in. cbn; auto.
    + split; reflexivity.
    + now apply filter_civ_reads.
    + now apply filter_civ_tight.
    + unused.
    + right. left. intros U. apply uses_in in U. cbn in U. intuition discriminate.
  - apply (C79_sum_iff _ _ (chunks_with sum_spec) grep_c 1 P2 eq_refl).
    + do 3 eexists. split; vm_compute; reflexivity.
    + unused.
    + apply uses_in. cbn; auto.
    + split; reflexivity.
    + now apply filter_civ_reads.
    + now apply filter_civ_tight.
    + unused.
    + split; [unused|]. left. split; [intros U; apply uses_in in U; cbn in U; intuition discriminate|]. intros s. reflexivity.
Qed.
Example C79_longer_refuted_case : exists inv, parse shipped_dir "grep -L x" = Ok inv /\
  (forall B o, is_grep o B -> pairs_ok B (chunks_with longer_spec) grep_L 1 keep_shorter (text_or_a inv)) /\
  pairs_wrong simple_system (chunks_with longer_spec) grep_L 1 keep_longer (text_or_a inv).
Proof.
  assert (P1 : parse shipped_dir "grep -L x" = Ok (mkInv "grep" [Flag "-L"] ["x"])) by (vm_compute; reflexivity).
  eexists. split; [exact P1|]. split.
  - apply (C79_shorter_iff _ _ (chunks_with longer_spec) grep_L 1 P1 eq_refl).
    + do 3 eexists. split; vm_compute; reflexivity.
    + unused.
    + apply uses_in. cbn; auto.
    + split; reflexivity.
    + now apply filter_civ_reads.
    + now apply filter_civ_tight.
    + unused.
    + right. left. intros U. apply uses_in in U. cbn in U. intuition discriminate.
  - apply (C79_longer_refuted _ _ (chunks_with longer_spec) grep_L 1 (fun _ => "") simple_grep simple_system "x" "y" P1 eq_refl).
    + do 3 eexists. split; vm_compute; reflexivity.
    + unused.
    + apply uses_in. cbn; auto.
    + split; reflexivity.
    + now apply filter_civ_reads.
    + now apply filter_civ_tight.
    + unused.
    + exact simple_is_grep.
    + discriminate.
    + repeat constructor.
    + reflexivity.
    + reflexivity.
Qed.

(** ** -n and -b
    Adding the numbers of lines and bytes before each part is right for all cuts at lines. *)
Definition number_excluded : list string :=
  ["-q"; "-l"; "-L"; "-c"; "-m"; "--max-count"; "-A"; "--after-context"; "-B"; "--before-context"; "-C"; "--context"; "-z"; "--help"; "-V"; "-r"; "-R"; "-H"].
Definition run_on (B : behaviour) (seed : nat) (c : civ) (s : store) (v : Z) (input : string) : string := run B seed c (connect [v] [input] s).
Lemma number_runs text inv c v s o B : parse shipped_dir text = Ok inv -> cmd_name inv = "grep" -> invocation_of inv c -> reads_one c v ->
  ~ uses_any inv number_excluded -> is_grep o B -> let fl := map (wflag_of c s) (v_flags c) in let ops := map (word_of c s) (v_ops c) in
  given fl ["--help"; "-V"; "-q"; "-l"; "-L"; "-c"; "-z"] = false /\ limit fl = None /\ before fl = 0 /\ after fl = 0 /\
  forall sd x, text_or_a inv x -> run_on B sd c s v x = grep_output o fl ops x.
Proof.
  intros PA C IN R NU GB fl ops.
  assert (G : forall names, incl names number_excluded -> given fl names = false).
  { intros names I. apply (given_unused inv); [exact IN|]. exact (unused_sub inv _ _ NU I). }
  assert (L : forall names, incl names number_excluded -> last_number fl names = None) by (intros names I; now apply last_number_none, G).
  split; [apply G; intros n; cbn; tauto|]. split; [apply L; intros n; cbn; tauto|].
  split; [unfold before; now rewrite !L by (intros n; cbn; tauto)|]. split; [unfold after; now rewrite !L by (intros n; cbn; tauto)|].
  intros sd x QX. unfold run_on. rewrite (run_original B sd c v _ R).
  destruct (words_only c v (connect [v] [x] s) s R) as (W1 & W2).
  { intros w _ N. apply connect_out. intros [E|[]]. congruence. }
  rewrite W1, W2. cbn [connect]. rewrite Z.eqb_refl. apply (grep_runs text inv c s o B PA C IN); auto.
  apply (unused_sub inv _ _ NU). intros n; cbn; tauto.
Qed.
Theorem C79_offsets : forall text inv c v s o B shown seed input pieces,
  parse shipped_dir text = Ok inv -> cmd_name inv = "grep" -> invocation_of inv c -> reads_one c v -> ~ uses_any inv number_excluded -> is_grep o B ->
  numbers_plainly o (map (wflag_of c s) (v_flags c)) (map (word_of c s) (v_ops c)) shown ->
  text_or_a inv input -> cut_at_lines input pieces ->
  with_offsets (map (wflag_of c s) (v_flags c)) (run_on B seed c s v) 0 0 pieces = run_on B seed c s v input.
Proof.
  intros text inv c v s o B shown seed input pieces PA C IN R NU GB NP QX (E & CU).
  destruct (number_runs text inv c v s o B PA C IN R NU GB) as (G & LI & BE & AF & H). rewrite H by exact QX.
  set (fl := map (wflag_of c s) (v_flags c)) in *. set (ops := map (word_of c s) (v_ops c)) in *.
  assert (X : forall l k m, text_or_a inv (joined l) -> with_offsets fl (run_on B seed c s v) k m l = with_offsets fl (grep_output o fl ops) k m l).
  { induction l as [|x l IH]; intros k m Q; [reflexivity|]. cbn [with_offsets]. change (joined (x :: l)) with (x +++ joined l) in Q.
    apply text_part in Q as (Q1 & Q2). now rewrite IH, H. }
  subst input. rewrite X by exact QX. rewrite (offsets_right o fl ops shown NP G LI BE AF pieces 0 0 CU). symmetry. now apply output_shown.
Qed.
Print Assumptions C79_offsets.
(** Without the numbers of the splitter no function of the result of a part can be right, whatever
    is selected and shown. *)
Theorem C79_offsets_needed : forall text inv c v s o B shown seed x g,
  parse shipped_dir text = Ok inv -> cmd_name inv = "grep" -> invocation_of inv c -> reads_one c v -> ~ uses_any inv number_excluded -> is_grep o B ->
  let fl := map (wflag_of c s) (v_flags c) in let ops := map (word_of c s) (v_ops c) in
  uses_any inv ["-n"; "-b"] -> numbers_plainly o fl ops shown ->
  is_text x -> has_char newline x = false -> xorb (given fl ["-v"]) (grep_match o fl ops x) = true -> shown x <> [] ->
  exists input pieces, is_text input /\ cut_at_lines input pieces /\
    joined (map (fun y => g (run_on B seed c s v y)) pieces) <> run_on B seed c s v input.
Proof.
  intros text inv c v s o B shown seed x g PA C IN R NU GB fl ops UN NP TX CX SX SH.
  destruct (number_runs text inv c v s o B PA C IN R NU GB) as (G & LI & BE & AF & H). fold fl ops in G, LI, BE, AF, H.
  destruct (shown x) as [|e es] eqn:ES; [congruence|]. set (a := x +++ String newline "").
  assert (TA : is_text a) by (unfold is_text, a in *; now rewrite has_char_app, TX).
  assert (EA : ends_line a) by (right; now exists x).
  assert (TT : is_text (a +++ a)) by (unfold is_text in *; now rewrite has_char_app, TA).
  assert (NB : given fl ["-n"; "-b"] = true) by now apply (given_uses inv c s).
  pose proof (offsets_differ o fl ops shown x e es NP G LI BE AF NB CX SX ES) as D. fold a in D. cbv zeta in D.
  destruct (String.eqb_spec (g (run_on B seed c s v a)) (run_on B seed c s v a)) as [E|NE].
  - exists (a +++ a), [a; a]. split; [exact TT|]. split; [split; [cbn; now rewrite append_nil|exact (Forall_cons a EA (Forall_nil _))]|].
    cbn [map joined fold_right]. rewrite append_nil, E, !H by now left. intros X. now apply D.
  - exists a, [a]. split; [exact TA|]. split; [split; [cbn; now rewrite append_nil|constructor]|].
    cbn [map joined fold_right]. now rewrite append_nil.
Qed.
Print Assumptions C79_offsets_needed.
(** A grep that prints numbers *)
Definition plain_grep : grep_oracle := mkGrepOracle (grep_match simple_grep)
  (fun _ _ n b _ x => [prefix_number n (prefix_number b x)]) (fun _ => ["--"]) (fun _ => "(standard input)") (fun _ n => number_text n +++ String newline "") "usage".
Lemma plain_numbers fl ops : numbers_plainly plain_grep fl ops (fun x => [(0, x)]).
Proof.
  split; [|intros x H; repeat constructor; exact H]. intros n [m|] x; cbn [grep_show plain_grep map fst snd]; [now rewrite Nat.add_0_r|reflexivity].
Qed.
Definition grep_nb : civ := filter_civ "grep" [FFlag "-n"; FFlag "-b"] [PArg "x"].
Example C79_offsets_case : exists inv, parse shipped_dir "grep -nb x" = Ok inv /\
  (forall seed s input pieces, text_or_a inv input -> cut_at_lines input pieces ->
    with_offsets [WFlag "-n"; WFlag "-b"] (run_on (grep_system plain_grep) seed grep_nb s 1) 0 0 pieces = run_on (grep_system plain_grep) seed grep_nb s 1 input) /\
  run_on (grep_system plain_grep) 0 grep_nb (fun _ => "") 1 (unlines ["ax"; "y"; "x"]) = unlines ["1:0:ax"; "3:5:x"].
Proof.
  assert (P1 : parse shipped_dir "grep -nb x" = Ok (mkInv "grep" [Flag "-n"; Flag "-b"] ["x"])) by (vm_compute; reflexivity).
  eexists. split; [exact P1|]. split.
  - intros seed s input pieces QX CU. apply (C79_offsets _ _ grep_nb 1 s plain_grep (grep_system plain_grep) (fun x => [(0, x)]) seed input pieces P1 eq_refl); auto.
    + split; reflexivity.
    + now apply filter_civ_reads.
    + unused.
    + apply grep_system_is.
    + apply plain_numbers.
  - vm_compute. reflexivity.
Qed.
Example C79_offsets_needed_case : forall g, exists input pieces, is_text input /\ cut_at_lines input pieces /\
    joined (map (fun y => g (run_on (grep_system plain_grep) 0 grep_nb (fun _ => "") 1 y)) pieces) <> run_on (grep_system plain_grep) 0 grep_nb (fun _ => "") 1 input.
Proof.
  assert (P1 : parse shipped_dir "grep -nb x" = Ok (mkInv "grep" [Flag "-n"; Flag "-b"] ["x"])) by (vm_compute; reflexivity).
  intros g. apply (C79_offsets_needed _ _ grep_nb 1 (fun _ => "") plain_grep (grep_system plain_grep) (fun x => [(0, x)]) 0 "x" g P1 eq_refl); auto; try reflexivity.
  - split; reflexivity.
  - now apply filter_civ_reads.
  - unused.
  - apply grep_system_is.
  - exists "-n". split; [now left|]. apply uses_in. cbn; auto.
  - apply plain_numbers.
  - discriminate.
Qed.
