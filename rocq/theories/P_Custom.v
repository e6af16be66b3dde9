(** * C89: aggregators given by a command line, for any command; wc, cat and uniq *)
From Coq Require Import Lia.
Require Import Verif.PyBase Verif.JsonData Verif.Parser Verif.Access Verif.IOInfo Verif.IOVars
  Verif.Transformers Verif.ParaTypes Verif.ParaGen Verif.MapperAgg Verif.SpecLists Verif.SpecVars Verif.SpecPara Verif.SpecMapper
  Verif.ListFacts Verif.IOVarsFacts Verif.IOVarsProps Verif.P_Mapper Verif.SpecHelpers
  Verif.SpecSem Verif.SemFacts Verif.SemRun Verif.SemProps Verif.SemProps2 Verif.SpecSem3 Verif.SpecSem4 Verif.SpecSem6 Verif.SpecSem10
  Verif.SpecIO Verif.ShippedData Verif.SpecOld Verif.OldFacts Verif.GenHelpers Verif.PipeFacts Verif.P_Sem Verif.P_Sem6 Verif.SemSystem Verif.P_Helpers Verif.SpecCustom Verif.CustomFacts.

(** ** Any command
    A parallelizer that runs a command on chunks and joins the results with a command line, as the guide
    says one can define it, is right exactly if the command line computes the output for a text from the
    outputs for its parts. *)
Theorem C89_custom_iff : forall dir k text agg flags c i B Q,
  parse dir text = Ok agg -> flags_only (flag_option_list agg) flags -> k <> ADJ_LINES_FUNC -> reads_one c i -> tight c -> part_closed Q ->
  parallel_ok B dir (custom_chunks k text) c i (takes_many k) Q <-> combines B agg k c i Q.
Proof. intros. split; [eapply custom_complete|eapply custom_sound]; eauto. Qed.
Print Assumptions C89_custom_iff.
(** If the outputs for the parts do not determine the output, then no command line helps. *)
Theorem C89_no_command_line : forall dir k text agg flags c i B s sd a b a' b',
  parse dir text = Ok agg -> flags_only (flag_option_list agg) flags -> k <> ADJ_LINES_FUNC -> reads_one c i -> tight c ->
  ends_line a -> ends_line a' ->
  run B sd c (put i a s) = run B sd c (put i a' s) -> run B sd c (put i b s) = run B sd c (put i b' s) ->
  run B sd c (put i (a +++ b) s) <> run B sd c (put i (a' +++ b') s) ->
  ~ parallel_ok B dir (custom_chunks k text) c i (takes_many k) (fun _ => True).
Proof.
  intros dir k text agg flags c i B s sd a b a' b' P F K R T EA EA' E1 E2 N OK.
  apply (C89_custom_iff dir k text agg flags c i B (fun _ => True) P F K R T) in OK; [|intros ? ? _ _; split; exact I].
  destruct OK as (_ & CO). assert (H : forall x y, ends_line x -> run B sd c (put i (x +++ y) s) = aggregated B agg sd [run B sd c (put i x s); run B sd c (put i y s)]).
  { intros x y EX. pose proof (CO s sd sd [x; y]) as H. cbn [joined fold_right map] in H. rewrite append_nil in H. apply H; [split; [discriminate|reflexivity]|constructor; [exact EX|constructor]|exact I]. }
  apply N. rewrite !H by assumption. now rewrite E1, E2.
Qed.
Print Assumptions C89_no_command_line.

(** ** wc *)
Lemma append_cancel_left a b d : d +++ a = d +++ b -> a = b.
Proof. induction d as [|x d IH]; cbn; [auto|]. intros H. injection H as H. auto. Qed.
Lemma count_app a x y : count_char a (x +++ y) = count_char a x + count_char a y.
Proof. induction x as [|b x IH]; [reflexivity|]. cbn. rewrite IH. lia. Qed.
Lemma words_snoc t i y : count_words i ((t +++ String newline "") +++ y) = count_words i (t +++ String newline "") + count_words false y.
Proof. revert i. induction t as [|b t IH]; intros i; [reflexivity|]. cbn [String.append count_words]. destruct (white b); rewrite IH; lia. Qed.
Lemma words_app x y : ends_line x -> count_words false (x +++ y) = count_words false x + count_words false y.
Proof. intros [->|(t & ->)]; [reflexivity|]. apply words_snoc. Qed.
Lemma total_app l l' : total (l ++ l') = total l + total l'.
Proof. induction l as [|n l IH]; [reflexivity|]. unfold total, largest in *. cbn. rewrite IH. lia. Qed.
Lemma largest_app l l' : largest (l ++ l') = Nat.max (largest l) (largest l').
Proof. induction l as [|n l IH]; [reflexivity|]. unfold total, largest in *. cbn. rewrite IH. lia. Qed.
Lemma length_append x y : String.length (x +++ y) = String.length x + String.length y.
Proof. induction x as [|b x IH]; [reflexivity|]. cbn. now rewrite IH. Qed.
Lemma wc_number_app o x y n : ends_line x -> In n wc_columns ->
  wc_number o (x +++ y) n = (if String.eqb n "-L" then Nat.max else Nat.add) (wc_number o x n) (wc_number o y n).
Proof.
  intros E I. cbn in I. destruct I as [<-|[<-|[<-|[<-|[<-|[]]]]]]; cbn [wc_number String.eqb Ascii.eqb Bool.eqb].
  - apply count_app.
  - now apply words_app.
  - rewrite count_app, lines_cat, map_app, total_app by exact E. lia.
  - apply length_append.
  - rewrite lines_cat, map_app by exact E. apply largest_app.
Qed.
Lemma column_map {A} (g : A -> nat -> nat -> nat) u v l : column_wise (map g l) (map u l) (map v l) = map (fun n => g n (u n) (v n)) l.
Proof. unfold column_wise. induction l as [|n l IH]; [reflexivity|]. cbn. f_equal. exact IH. Qed.
Lemma asked_columns fl : incl (wc_asked fl) wc_columns.
Proof. unfold wc_asked. destruct (given fl wc_columns); [intros n I; now apply filter_In in I|]. intros n I. cbn in *. intuition. Qed.
Lemma asked_L fl : In "-L" (wc_asked fl) <-> given fl ["-L"] = true.
Proof.
  unfold wc_asked. destruct (given fl wc_columns) eqn:G.
  - rewrite filter_In. split; [now intros (_ & H)|]. intros H. split; [cbn; auto 6|exact H].
  - split; [intros I; cbn in I; intuition discriminate|]. intros H. exfalso. unfold given in *. apply existsb_exists in H as (f & J & M).
    assert (X : existsb (fun f => mem (wflag_name f) wc_columns) fl = true).
    { apply existsb_exists. exists f. split; [exact J|]. cbn in M |- *. destruct (String.eqb (wflag_name f) "-L"); [|discriminate]. now rewrite !orb_true_r. }
    congruence.
Qed.
Section Wc.
  Variables (dir : data_dir) (text : string) (agg : invocation) (flags : list flag_el) (inv : invocation) (c : civ) (i : Z) (B : behaviour) (o : wc_oracle).
  Hypothesis P : parse dir text = Ok agg.
  Hypothesis F : flags_only (flag_option_list agg) flags.
  Hypothesis C : cmd_name inv = "wc".
  Hypothesis KN : Forall (fun fo => In (fo_name fo) wc_columns) (flag_option_list inv).
  Hypothesis IN : invocation_of inv c.
  Hypothesis O : v_ops c = [].
  Hypothesis R : reads_one c i.
  Hypothesis W : is_wc o B.
  Lemma wc_run s sd x : run B sd c (put i x s) = wc_show o (map (wc_number o x) (wc_asked (map (wflag_of c s) (v_flags c)))).
  Proof. rewrite (put_run _ _ _ _ _ _ R). destruct IN as (N & _). rewrite N, C, O. cbn [map]. apply (proj2 W). now apply (names_known inv). Qed.
  Lemma two_pieces (H : forall s sd sd' x y, ends_line x -> run B sd c (put i (x +++ y) s) = aggregated B agg sd' [run B sd c (put i x s); run B sd c (put i y s)]) :
    combines B agg CUSTOM_2_ARY c i (fun _ => True).
  Proof.
    split; [intros s sd sd' x _; now rewrite !wc_run|]. intros s sd sd' pieces (_ & T) E _. specialize (T eq_refl).
    destruct pieces as [|x [|y [|? ?]]]; try discriminate. cbn [joined fold_right map]. rewrite append_nil. apply H. cbn in E. now inversion E.
  Qed.
End Wc.
(** wc that reads standard input: adding up the numbers column by column, as the guide says, is right exactly
    if the length of the longest line is not asked for. *)
Theorem C89_wc_sum_iff : forall dir text agg flags inv c i B o,
  parse dir text = Ok agg -> flags_only (flag_option_list agg) flags -> adds_up o B agg ->
  cmd_name inv = "wc" -> Forall (fun fo => In (fo_name fo) wc_columns) (flag_option_list inv) -> invocation_of inv c -> v_ops c = [] ->
  reads_one c i -> tight c -> is_wc o B -> (exists l, has_char newline l = false /\ wc_width o l <> 0) ->
  parallel_ok B dir (custom_chunks CUSTOM_2_ARY text) c i (takes_many CUSTOM_2_ARY) (fun _ => True) <-> ~ uses inv "-L".
Proof.
  intros dir text agg flags inv c i B o P F AU C KN IN O R T W (l & L1 & L2).
  rewrite (C89_custom_iff dir CUSTOM_2_ARY text agg flags c i B (fun _ => True) P F ltac:(discriminate) R T) by (intros ? ? _ _; split; exact I).
  pose proof (wc_run inv c i B o C KN IN O R W) as X.
  assert (U : forall s, In "-L" (wc_asked (map (wflag_of c s) (v_flags c))) <-> uses inv "-L").
  { intros s. rewrite asked_L, (given_uses inv) by exact IN. split; [intros (n & [<-|[]] & H); exact H|]. intros H. exists "-L". split; [now left|exact H]. }
  assert (AG : forall s sd' x y, aggregated B agg sd' [wc_show o (map (wc_number o x) (wc_asked (map (wflag_of c s) (v_flags c)))); wc_show o (map (wc_number o y) (wc_asked (map (wflag_of c s) (v_flags c))))] =
    wc_show o (map (fun n => wc_number o x n + wc_number o y n) (wc_asked (map (wflag_of c s) (v_flags c))))).
  { intros s sd' x y. rewrite AU, !(proj1 W), map_map. now rewrite column_map. }
  split.
  - intros (_ & CO) UL. set (x := unlines [l]). set (s := fun _ : Z => "").
    assert (EX : ends_line x) by apply unlines_ends.
    pose proof (CO s 0 0 [x; x]) as H. cbn [joined fold_right map] in H. rewrite append_nil, !X, AG in H.
    specialize (H ltac:(split; [discriminate|reflexivity]) ltac:(constructor; [exact EX|constructor]) I).
    apply (f_equal (wc_read o)) in H. rewrite !(proj1 W) in H. apply (U s) in UL.
    pose proof (ext_in_map H "-L" UL) as E. rewrite wc_number_app in E by (cbn; auto 6). cbn [String.eqb Ascii.eqb Bool.eqb wc_number] in E.
    unfold x in E. assert (LX : lines (unlines [l]) = [l]) by (apply records_terminated; repeat constructor; exact L1). rewrite LX in E. cbn in E. lia.
  - intros NU. apply (two_pieces agg inv c i B o C KN IN O R W). intros s sd sd' x y EX. rewrite !X, AG. f_equal. apply map_ext_in. intros n J.
    rewrite wc_number_app by (try exact EX; now apply (asked_columns _ _ J)). destruct (String.eqb_spec n "-L") as [->|]; [|reflexivity].
    exfalso. apply NU. now apply (U s).
Qed.
Print Assumptions C89_wc_sum_iff.
(** Taking the larger number in the column of -L and adding up the others is right for all flags. *)
Theorem C89_wc_merge : forall dir text agg flags inv c i B o,
  parse dir text = Ok agg -> flags_only (flag_option_list agg) flags -> (forall s, adds_up_but_L o B agg (map (wflag_of c s) (v_flags c))) ->
  cmd_name inv = "wc" -> Forall (fun fo => In (fo_name fo) wc_columns) (flag_option_list inv) -> invocation_of inv c -> v_ops c = [] ->
  reads_one c i -> tight c -> is_wc o B ->
  parallel_ok B dir (custom_chunks CUSTOM_2_ARY text) c i (takes_many CUSTOM_2_ARY) (fun _ => True).
Proof.
  intros dir text agg flags inv c i B o P F AU C KN IN O R T W.
  apply (C89_custom_iff dir CUSTOM_2_ARY text agg flags c i B (fun _ => True) P F ltac:(discriminate) R T); [intros ? ? _ _; split; exact I|].
  pose proof (wc_run inv c i B o C KN IN O R W) as X.
  apply (two_pieces agg inv c i B o C KN IN O R W). intros s sd sd' x y EX. rewrite !X, (AU s), !(proj1 W), column_map. f_equal. apply map_ext_in. intros n J.
  apply wc_number_app; [exact EX|now apply (asked_columns _ _ J)].
Qed.
Print Assumptions C89_wc_merge.

(** ** cat *)
Lemma full_snoc t y : full_lines ((t +++ String newline "") +++ y) = full_lines (t +++ String newline "") ++ full_lines y.
Proof.
  induction t as [|a t IH]; [reflexivity|]. cbn [String.append full_lines]. destruct (Ascii.eqb a newline); rewrite IH; [reflexivity|].
  destruct (full_lines (t +++ String newline "")) eqn:E; [|reflexivity].
  destruct t as [|b t]; [discriminate E|]. cbn [String.append full_lines] in E. destruct (Ascii.eqb b newline); [discriminate|]. destruct (full_lines (t +++ _)); discriminate.
Qed.
Lemma full_app x y : ends_line x -> full_lines (x +++ y) = full_lines x ++ full_lines y.
Proof. intros [->|(t & ->)]; [reflexivity|apply full_snoc]. Qed.
Lemma unnumbered o fl n l : given fl ["-n"; "-b"] = false -> numbered o fl n l = joined (map (cat_line o fl) l).
Proof. intros G. revert n. induction l as [|x l IH]; intros n; [reflexivity|]. cbn [numbered]. rewrite G. cbn [andb map joined fold_right]. now rewrite IH. Qed.
Lemma given_or fl l l' : given fl (l ++ l') = given fl l || given fl l'.
Proof.
  unfold given. induction fl as [|f fl IH]; [reflexivity|]. cbn [existsb]. rewrite IH.
  assert (M : mem (wflag_name f) (l ++ l') = mem (wflag_name f) l || mem (wflag_name f) l') by (unfold mem; apply existsb_app).
  rewrite M. destruct (mem _ l), (mem _ l'), (existsb _ fl), (existsb _ fl); reflexivity.
Qed.
(** The guide: "cat with no flags is stateless, so the default options work".  With flags they work exactly if
    lines are neither numbered nor dropped. *)
Theorem C89_cat_iff : forall k l p inv c i B o dir,
  In k [CcSeqConc; RrSeqConc] -> adds k l -> In p l -> reads_one c i -> tight c -> is_cat B -> is_cat_with_flags o B ->
  cmd_name inv = "cat" -> Forall (fun fo => In (fo_name fo) cat_names) (flag_option_list inv) -> invocation_of inv c ->
  parallel_ok B dir p c i (fun n => n <> 0) (fun _ => True) <-> ~ uses_any inv ["-n"; "-b"; "-s"].
Proof.
  intros k l p inv c i B o dir K A J R T CB (NE & ND & CF) C KN IN.
  rewrite (C85_concat_iff k l p c i B (fun _ => True) dir K A J R T CB) by (intros ? ? _ _; exact I).
  assert (X : forall s sd x, run B sd c (put i x s) = numbered o (map (wflag_of c s) (v_flags c)) 1
    (if given (map (wflag_of c s) (v_flags c)) ["-s"] then drop_empty_lines false (full_lines x) else full_lines x)).
  { intros s sd x. rewrite (put_run _ _ _ _ _ _ R), (proj1 IN), C. apply CF. now apply (names_known inv). }
  split.
  - intros PW U. set (s := fun _ : Z => ""). set (fl := map (wflag_of c s) (v_flags c)).
    assert (G : given fl ["-n"; "-b"; "-s"] = true) by (now apply (given_uses inv)).
    change ["-n"; "-b"; "-s"] with (["-n"; "-b"] ++ ["-s"]) in G. rewrite given_or in G.
    destruct (given fl ["-n"; "-b"]) eqn:GN.
    + pose proof (PW s 0 0 0 (String "a" (String newline "")) (String "a" (String newline ""))) as H.
      rewrite !X in H. fold fl in H. specialize (H ltac:(right; now exists "a") I).
      assert (Y : forall m, (if given fl ["-s"] then drop_empty_lines false m else m) = m \/ exists a, In a m /\ empty_line a = true).
      { intros m. destruct (given fl ["-s"]); [|now left]. generalize false as b. induction m as [|a m IH]; intros b; [now left|]. cbn. destruct (empty_line a) eqn:EA; [right; exists a; auto|].
        cbn. destruct (IH false) as [->|(a' & I1 & I2)]; [now left|right; exists a'; auto]. }
      assert (Y' : forall m, (forall a, In a m -> empty_line a = false) -> (if given fl ["-s"] then drop_empty_lines false m else m) = m).
      { intros m M. destruct (Y m) as [E|(a & I1 & I2)]; [exact E|]. rewrite M in I2 by exact I1. discriminate. }
      rewrite !Y' in H by (intros a I1; cbn in I1; intuition (subst; reflexivity)).
      assert (E1 : full_lines (String "a" (String newline "")) = [String "a" (String newline "")]) by reflexivity.
      rewrite full_app, E1 in H by (right; now exists "a"). cbn [app] in H.
      cbn [numbered] in H. rewrite GN in H. change (empty_line (String "a" (String newline ""))) with false in H. rewrite andb_false_r in H. cbn [negb andb] in H.
      rewrite !append_nil, !append_assoc in H. do 2 apply append_cancel_left in H. apply append_cancel in H. now apply ND.
    + cbn [orb] in G. pose proof (PW s 0 0 0 (String newline "") (String newline "")) as H.
      rewrite !X in H. fold fl in H. specialize (H ltac:(right; now exists "") I). rewrite G in H.
      rewrite !unnumbered in H by exact GN. cbn in H. rewrite !append_nil in H.
      change (String "010" "") with (String newline "") in H. apply (NE fl).
      destruct (cat_line o fl (String newline "")) as [|a t]; [reflexivity|exfalso]. apply (f_equal String.length) in H. rewrite length_append in H. cbn in H. lia.
  - intros U s sd sd1 sd2 a b EA _. set (fl := map (wflag_of c s) (v_flags c)).
    assert (G : given fl ["-n"; "-b"; "-s"] = false) by (apply not_true_is_false; intros G; apply U; now apply (given_uses inv) in G).
    change ["-n"; "-b"; "-s"] with (["-n"; "-b"] ++ ["-s"]) in G. rewrite given_or in G. apply orb_false_iff in G as (G1 & G2).
    rewrite !X. fold fl. rewrite G2, !unnumbered, full_app, map_app by assumption. apply joined_app.
Qed.
Print Assumptions C89_cat_iff.
(** The records of the earlier annotation language put cat into the class stateless unless -n is given.  That
    is wrong exactly for -b and -s. *)
Lemma cat_old inv : cmd_name inv = "cat" -> old_class inv "stateless" <-> ~ uses inv "-n".
Proof.
  intros C. rewrite old_class_iff, C.
  assert (E : exists cs, cases_of "cat" = Some cs /\ (assigned inv cs "stateless" <-> ~ uses inv "-n")).
  { eexists. split; [vm_compute; reflexivity|]. split.
    - intros A U. inversion A as [c cs M E1 E2|c cs k M A' E1 E2]; subst. apply M. cbn [c_when met]. now apply uses_any_one.
    - intros U. apply as_later; [cbn [c_when met]; rewrite uses_any_one; exact U|].
      destruct (met_dec inv (Arguments 0)) as [M|M].
      + now apply (as_here _ (mkCase _ "stateless")).
      + apply as_later; [exact M|]. now apply (as_here _ (mkCase _ "stateless")). }
  destruct E as (cs & E & H). rewrite E. split.
  - intros (cs' & [= <-] & A). now apply H.
  - intros U. exists cs. split; [reflexivity|now apply H].
Qed.
Theorem C89_cat_old_refuted : forall k l p inv c i B o dir,
  In k [CcSeqConc; RrSeqConc] -> adds k l -> In p l -> reads_one c i -> tight c -> is_cat B -> is_cat_with_flags o B ->
  cmd_name inv = "cat" -> Forall (fun fo => In (fo_name fo) cat_names) (flag_option_list inv) -> invocation_of inv c ->
  old_class inv "stateless" /\ ~ parallel_ok B dir p c i (fun n => n <> 0) (fun _ => True) <->
  ~ uses inv "-n" /\ uses_any inv ["-b"; "-s"].
Proof.
  intros k l p inv c i B o dir K A J R T CB CF C KN IN. rewrite (C89_cat_iff k l p inv c i B o dir K A J R T CB CF C KN IN), (cat_old inv C).
  assert (D : uses_any inv ["-n"; "-b"; "-s"] \/ ~ uses_any inv ["-n"; "-b"; "-s"]).
  { rewrite <- (given_uses inv c (fun _ => "") _ IN). destruct (given _ _); auto. }
  split.
  - intros (N & H). split; [exact N|]. destruct D as [(n & [<-|I1] & U)|D]; [now destruct N|now exists n|contradiction].
  - intros (N & (n & I1 & U)). split; [exact N|]. intros H. apply H. exists n. split; [now right|exact U].
Qed.
Print Assumptions C89_cat_old_refuted.

(** ** uniq
    No command line can join the results of uniq -u or of uniq -d. *)
Lemma selected_one fl x : selected fl [x] = negb (given fl ["-d"]).
Proof. unfold selected. cbn. destruct (given fl ["-d"]), (given fl ["-u"]); reflexivity. Qed.
Lemma selected_more fl x y l : selected fl (x :: y :: l) = negb (given fl ["-u"]).
Proof. unfold selected. cbn. destruct (given fl ["-d"]), (given fl ["-u"]); reflexivity. Qed.
Theorem C89_uniq_no_command_line : forall dir k text agg flags inv c i B o s a b,
  parse dir text = Ok agg -> flags_only (flag_option_list agg) flags -> k <> ADJ_LINES_FUNC ->
  cmd_name inv = "uniq" -> Forall (fun fo => In (fo_name fo) uniq_names) (flag_option_list inv) -> invocation_of inv c ->
  ~ uses_any inv ["-D"; "--all-repeated"; "--group"; "--help"; "--version"; "-z"] ->
  (uses inv "-u" /\ ~ uses inv "-d") \/ (uses inv "-d" /\ ~ uses inv "-u") ->
  reads_one c i -> tight c -> is_counting_uniq o B ->
  has_char newline a = false -> has_char newline b = false -> uniq_same o (map (wflag_of c s) (v_flags c)) a b = false ->
  ~ parallel_ok B dir (custom_chunks k text) c i (takes_many k) (fun _ => True).
Proof.
  intros dir k text agg flags inv c i B o s a b P F K C KN IN NU UD R T (EQ & UN) HA HB AB.
  set (fl := map (wflag_of c s) (v_flags c)) in *.
  assert (NG : forall l, incl l ["-D"; "--all-repeated"; "--group"; "--help"; "--version"; "-z"] -> given fl l = false).
  { intros l L. apply not_true_is_false. intros G. apply (given_uses inv) in G; [|exact IN]. destruct G as (n & I1 & U). apply NU. exists n. auto. }
  assert (G1 : forall n, given fl [n] = true <-> uses inv n).
  { intros n. unfold fl. rewrite (given_uses inv) by exact IN. split; [intros (m & [<-|[]] & H); exact H|]. intros H. exists n. split; [now left|exact H]. }
  assert (GF : forall n, ~ uses inv n -> given fl [n] = false) by (intros n U; apply not_true_is_false; now rewrite G1).
  assert (X : forall l sd, Forall (fun r => has_char newline r = false) l ->
    run B sd c (put i (unlines l) s) = unlines (map (shown_block fl) (filter (selected fl) (blocks (uniq_same o fl) l)))).
  { intros l sd L. rewrite (put_run _ _ _ _ _ _ R), (proj1 IN), C. fold fl. rewrite UN.
    - unfold uniq_lines. rewrite (NG ["--help"; "--version"]), (NG ["-z"]) by (intros n H; cbn in *; tauto). unfold unlines. now rewrite records_terminated.
    - unfold fl. now apply (names_known inv).
    - apply NG. intros n H. cbn in *. tauto. }
  destruct (EQ fl) as (RF & SY & _). assert (SA := RF a). assert (SB := RF b). assert (BA : uniq_same o fl b a = false) by (rewrite SY; exact AB).
  assert (J : forall l l', unlines l +++ unlines l' = unlines (l ++ l')) by (intros; unfold unlines; now rewrite terminated_app).
  assert (NE : forall x, unlines [x] <> "") by (intros [|? ?]; discriminate).
  destruct UD as [(U & ND)|(U & ND)]; apply G1 in U; apply GF in ND.
  - apply (C89_no_command_line dir k text agg flags c i B s 0 (unlines [a; a]) (unlines [a]) (unlines [b; b]) (unlines [a]) P F K R T);
      rewrite ?J; try apply unlines_ends; rewrite ?X by (repeat constructor; assumption); cbn [app blocks];
      rewrite ?SA, ?SB, ?AB, ?BA; cbn [filter]; rewrite ?SA, ?SB, ?AB, ?BA; cbn [filter]; rewrite ?selected_one, ?selected_more, ?U, ?ND; cbn [negb]; try reflexivity.
    intros H. symmetry in H. revert H. cbn [map]. apply NE.
  - apply (C89_no_command_line dir k text agg flags c i B s 0 (unlines [a]) (unlines [a]) (unlines [a]) (unlines [b]) P F K R T);
      rewrite ?J; try apply unlines_ends; rewrite ?X by (repeat constructor; assumption); cbn [app blocks];
      rewrite ?SA, ?SB, ?AB, ?BA; cbn [filter]; rewrite ?SA, ?SB, ?AB, ?BA; cbn [filter]; rewrite ?selected_one, ?selected_more, ?U, ?ND; cbn [negb]; try reflexivity.
    cbn [map]. apply NE.
Qed.
Print Assumptions C89_uniq_no_command_line.

(** ** A system for the examples
    wc writes its numbers in the unary system, one on each line; add and merge join two such results, the
    latter for wc -l -L. *)
Definition ones (n : nat) : string := string_of_list_ascii (repeat "1"%char n).
Definition unary_wc : wc_oracle := mkWc String.length String.length (fun l => unlines (map ones l)) (fun x => map String.length (lines x)).
Definition numbering_cat : cat_oracle := mkCat (fun _ x => x) (fun n => ones n +++ " ").
Definition plain_uniq : uniq_oracle := mkUniq (fun _ => String.eqb) "usage".
Definition tally : behaviour := fun _ cmd fl _ inputs =>
  let two f := match inputs with [x; y] => wc_show unary_wc (f (wc_read unary_wc x) (wc_read unary_wc y)) | _ => "" end in
  if String.eqb cmd "wc" then wc_show unary_wc (map (wc_number unary_wc (joined inputs)) (wc_asked fl))
  else if String.eqb cmd "add" then two (fun l l' => column_wise (map (fun _ => Nat.add) l) l l')
  else if String.eqb cmd "merge" then two (column_wise [Nat.add; Nat.max])
  else if String.eqb cmd "uniq" then uniq_lines plain_uniq fl (joined inputs)
  else numbered numbering_cat fl 1 (if given fl ["-s"] then drop_empty_lines false (full_lines (joined inputs)) else full_lines (joined inputs)).
Lemma ones_length n : String.length (ones n) = n.
Proof. unfold ones. induction n as [|n IH]; [reflexivity|]. cbn. now rewrite IH. Qed.
Lemma ones_clean n : has_char newline (ones n) = false.
Proof. unfold ones. induction n as [|n IH]; [reflexivity|]. cbn in *. exact IH. Qed.
Lemma unary_reads l : wc_read unary_wc (wc_show unary_wc l) = l.
Proof.
  cbn. unfold lines, unlines. rewrite records_terminated.
  - rewrite map_map. rewrite <- (map_id l) at 2. apply map_ext. apply ones_length.
  - apply Forall_map, Forall_forall. intros n _. apply ones_clean.
Qed.
Lemma tally_wc : is_wc unary_wc tally.
Proof.
  split; [exact unary_reads|]. intros seed fl x _. unfold tally. cbn [String.eqb Ascii.eqb Bool.eqb joined fold_right]. now rewrite append_nil.
Qed.
Lemma full_joined x : joined (full_lines x) = x.
Proof.
  unfold joined. induction x as [|a x IH]; [reflexivity|]. cbn [full_lines]. destruct (Ascii.eqb_spec a newline) as [->|].
  - cbn [fold_right String.append]. now rewrite IH.
  - destruct (full_lines x) as [|r rs]; cbn [fold_right String.append] in *; now rewrite IH.
Qed.
Lemma tally_cat : is_cat tally.
Proof. intros seed ops inputs _. unfold tally. cbn [String.eqb Ascii.eqb Bool.eqb given existsb]. rewrite unnumbered by reflexivity. cbn [cat_line numbering_cat]. rewrite map_id. apply full_joined. Qed.
Lemma tally_cat_flags : is_cat_with_flags numbering_cat tally.
Proof.
  split; [discriminate|]. split; [discriminate|]. intros seed fl ops x _. unfold tally. cbn [String.eqb Ascii.eqb Bool.eqb joined fold_right]. now rewrite append_nil.
Qed.
Lemma tally_uniq : is_counting_uniq plain_uniq tally.
Proof.
  split.
  - intros fl. split; [apply String.eqb_refl|]. split; [apply String.eqb_sym|]. cbn. intros x y z H H'. apply String.eqb_eq in H as ->. exact H'.
  - intros seed fl ops x _ _. unfold tally. cbn [String.eqb Ascii.eqb Bool.eqb joined fold_right]. now rewrite append_nil.
Qed.
Definition reader (cmd : string) (names : list string) : civ := filter_civ cmd (map FFlag names) [].
Lemma reader_reads cmd names : reads_one (reader cmd names) 1 /\ tight (reader cmd names).
Proof.
  assert (F : forallb plain_flag (map FFlag names) = true) by (apply forallb_forall; intros f I; apply in_map_iff in I as (n & <- & _); reflexivity).
  split; [now apply filter_civ_reads|now apply filter_civ_tight].
Qed.
(** wc -l and wc -L with a command line that adds up; wc -l -L with one that takes the larger length *)
Example C89_wc_case :
  parse shipped_dir "add" = Ok (mkInv "add" [] []) /\ parse shipped_dir "wc --lines" = Ok (mkInv "wc" [Flag "-l"] []) /\
  parallel_ok tally shipped_dir (custom_chunks CUSTOM_2_ARY "add") (reader "wc" ["-l"]) 1 (takes_many CUSTOM_2_ARY) (fun _ => True) /\
  ~ parallel_ok tally shipped_dir (custom_chunks CUSTOM_2_ARY "add") (reader "wc" ["-l"; "-L"]) 1 (takes_many CUSTOM_2_ARY) (fun _ => True) /\
  parallel_ok tally shipped_dir (custom_chunks CUSTOM_2_ARY "merge") (reader "wc" ["-l"; "-L"]) 1 (takes_many CUSTOM_2_ARY) (fun _ => True).
Proof.
  assert (P : parse shipped_dir "add" = Ok (mkInv "add" [] [])) by (vm_compute; reflexivity).
  assert (P' : parse shipped_dir "merge" = Ok (mkInv "merge" [] [])) by (vm_compute; reflexivity).
  assert (W : exists l, has_char newline l = false /\ wc_width unary_wc l <> 0) by (exists "a"; split; [reflexivity|discriminate]).
  assert (A : adds_up unary_wc tally (mkInv "add" [] [])) by (intros seed x y; reflexivity).
  split; [exact P|]. split; [vm_compute; reflexivity|]. split; [|split].
  - destruct (reader_reads "wc" ["-l"]) as (R & T).
    apply (C89_wc_sum_iff shipped_dir "add" (mkInv "add" [] []) [] (mkInv "wc" [Flag "-l"] []) (reader "wc" ["-l"]) 1 tally unary_wc P (Forall2_nil _) A eq_refl); auto using tally_wc.
    + repeat constructor.
    + split; reflexivity.
    + intros (fo & [<-|[]] & E). discriminate.
  - destruct (reader_reads "wc" ["-l"; "-L"]) as (R & T). intros H.
    apply (C89_wc_sum_iff shipped_dir "add" (mkInv "add" [] []) [] (mkInv "wc" [Flag "-l"; Flag "-L"] []) (reader "wc" ["-l"; "-L"]) 1 tally unary_wc P (Forall2_nil _) A eq_refl) in H; auto using tally_wc.
    + apply H. exists (Flag "-L"). split; [cbn; auto|reflexivity].
    + apply Forall_forall; cbn; intuition (subst; cbn; auto 12).
    + split; reflexivity.
  - destruct (reader_reads "wc" ["-l"; "-L"]) as (R & T).
    apply (C89_wc_merge shipped_dir "merge" (mkInv "merge" [] []) [] (mkInv "wc" [Flag "-l"; Flag "-L"] []) (reader "wc" ["-l"; "-L"]) 1 tally unary_wc P' (Forall2_nil _)); auto using tally_wc.
    + intros s seed x y. reflexivity.
    + apply Forall_forall; cbn; intuition (subst; cbn; auto 12).
    + split; reflexivity.
Qed.
(** cat -E is right, cat -s is not, though the earlier records call it stateless *)
Example C89_cat_case : adds CcSeqConc [chunks SpecPara.concat] /\
  parallel_ok tally shipped_dir (chunks SpecPara.concat) (reader "cat" ["-E"]) 1 (fun n => n <> 0) (fun _ => True) /\
  old_class (mkInv "cat" [Flag "-s"] []) "stateless" /\
  ~ parallel_ok tally shipped_dir (chunks SpecPara.concat) (reader "cat" ["-s"]) 1 (fun n => n <> 0) (fun _ => True).
Proof.
  assert (A : adds CcSeqConc [chunks SpecPara.concat]) by (apply adds_one; try reflexivity; intros q; discriminate).
  split; [exact A|]. split.
  - destruct (reader_reads "cat" ["-E"]) as (R & T).
    apply (C89_cat_iff CcSeqConc _ _ (mkInv "cat" [Flag "-E"] []) (reader "cat" ["-E"]) 1 tally numbering_cat shipped_dir (or_introl eq_refl) A (or_introl eq_refl) R T tally_cat tally_cat_flags eq_refl).
    + apply Forall_forall; cbn; intuition (subst; cbn; auto 12).
    + split; reflexivity.
    + intros (n & I1 & (fo & [<-|[]] & E)). cbn in E. subst n. cbn in I1. intuition discriminate.
  - destruct (reader_reads "cat" ["-s"]) as (R & T).
    apply (C89_cat_old_refuted CcSeqConc _ _ (mkInv "cat" [Flag "-s"] []) (reader "cat" ["-s"]) 1 tally numbering_cat shipped_dir (or_introl eq_refl) A (or_introl eq_refl) R T tally_cat tally_cat_flags eq_refl).
    + apply Forall_forall; cbn; intuition (subst; cbn; auto 12).
    + split; reflexivity.
    + split; [intros (fo & [<-|[]] & E); discriminate|]. exists "-s". split; [cbn; auto|]. exists (Flag "-s"). split; [cbn; auto|reflexivity].
Qed.
(** uniq -u with any command line without options, for instance uniq -u itself *)
Example C89_uniq_case :
  parse shipped_dir "uniq -u" = Ok (mkInv "uniq" [Flag "-u"] []) /\
  ~ parallel_ok tally shipped_dir (custom_chunks CUSTOM_N_ARY "uniq -u") (reader "uniq" ["-u"]) 1 (takes_many CUSTOM_N_ARY) (fun _ => True).
Proof.
  assert (P : parse shipped_dir "uniq -u" = Ok (mkInv "uniq" [Flag "-u"] [])) by (vm_compute; reflexivity).
  split; [exact P|]. destruct (reader_reads "uniq" ["-u"]) as (R & T).
  apply (C89_uniq_no_command_line shipped_dir CUSTOM_N_ARY "uniq -u" (mkInv "uniq" [Flag "-u"] []) [FFlag "-u"] (mkInv "uniq" [Flag "-u"] []) (reader "uniq" ["-u"]) 1 tally plain_uniq (fun _ => "") "a" "b" P); auto using tally_uniq.
  - repeat constructor. now exists "-u".
  - discriminate.
  - apply Forall_forall; cbn; intuition (subst; cbn; auto 12).
  - split; reflexivity.
  - intros (n & I1 & (fo & [<-|[]] & E)). cbn in E. subst n. cbn in I1. intuition discriminate.
  - left. split; [exists (Flag "-u"); split; [cbn; auto|reflexivity]|]. intros (fo & [<-|[]] & E). discriminate.
Qed.
