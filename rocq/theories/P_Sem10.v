(** * Functions for adjacent lines that are still to be written (C78)
    [lines_ok], [lines_wrong], [squeeze_again], [drop_empty], [count_merge] and the commands are
    in SpecSem10.v. *)
From Coq Require Import Lia.
Require Import Verif.PyBase Verif.JsonData Verif.Parser Verif.Access Verif.IOInfo Verif.IOVars
  Verif.Transformers Verif.ParaTypes Verif.ParaGen Verif.MapperAgg Verif.SpecLists Verif.SpecIO Verif.SpecVars Verif.SpecPara
  Verif.ParserFacts Verif.ParaProps Verif.ShippedData Verif.P_Para Verif.SpecSem Verif.SemFacts Verif.SemRun Verif.SemProps Verif.SemSystem
  Verif.P_Sem Verif.SpecSem3 Verif.SemProps3 Verif.P_Sem3 Verif.P_Sem6 Verif.SpecSem10 Verif.SemProps10.

(** ** Which plans ask for such a function *)
Definition tr_placeholder : agg_spec := AggString ADJ_LINES_FUNC "PLACEHOLDER: remove first line if empty" false.
Definition uniq_placeholder : agg_spec := AggString ADJ_LINES_FUNC "PLACEHOLDER:uniq_merge_count_uniq" false.
Theorem C78_asked : forall dir inv p, offered dir inv p -> agg_kind_of (p_aggregator p) = ADJ_LINES_FUNC ->
  (cmd_name inv = "tr" /\ ~ uses inv "-d" /\ uses inv "-s" /\ acts_on_newline inv /\ In p (stateless tr_placeholder)) \/
  (cmd_name inv = "uniq" /\ ~ uses_any inv ["-d"; "-D"; "--all-repeated"] /\ uses inv "-c" /\ In p (stateless uniq_placeholder)).
Proof.
  intros dir inv p OF K. destruct (offered_aggregator dir inv p OF) as (i & q & G & I & _ & E & EQ).
  assert (A : annotated dir inv (Some (parallelizer_list i, is_commutative i))) by (apply C25_exact; now rewrite G).
  rewrite E in K. clear E G OF. revert A I EQ. generalize (parallelizer_list i) as pl. generalize (is_commutative i) as b. intros b pl A I EQ.
  inversion A; subst; try solve [exfalso; cbn in I; repeat (destruct I as [<-|I]; [cbn in K; discriminate K|]); destruct I].
  - right. rewrite EQ by reflexivity. auto.
  - left. rewrite EQ by reflexivity. auto.
Qed.
Print Assumptions C78_asked.
Example C78_asked_case : forall p,
  (In p (stateless tr_placeholder) -> exists inv, parse shipped_dir "tr -s 'a\n'" = Ok inv /\ offered shipped_dir inv p) /\
  (In p (stateless uniq_placeholder) -> exists inv, parse shipped_dir "uniq -c -i" = Ok inv /\ offered shipped_dir inv p).
Proof.
  intros p. split; intros I; eexists; (split; [vm_compute; reflexivity|]); (eapply offered_first; [vm_compute; reflexivity|exact I]).
Qed.

(** ** tr -s
    Squeezing the two lines again is right for every set and every translation. *)
Lemma tr_runs text inv c s o B : parse shipped_dir text = Ok inv -> cmd_name inv = "tr" -> invocation_of inv c -> is_tr o B ->
  forall sd x, B sd (v_cmd c) (map (wflag_of c s) (v_flags c)) (map (word_of c s) (v_ops c)) [x] =
    tr_output o (map (wflag_of c s) (v_flags c)) (map (word_of c s) (v_ops c)) x.
Proof.
  intros PA C IN TB sd x. assert (CN : v_cmd c = "tr") by (destruct IN as (-> & _); exact C). rewrite CN. apply TB.
  eapply parse_known; eauto; [rewrite C; left; vm_compute; reflexivity|vm_compute; reflexivity].
Qed.
Theorem C78_squeeze_again : forall text inv p c v B o,
  parse shipped_dir text = Ok inv -> cmd_name inv = "tr" -> offered shipped_dir inv p -> agg_kind_of (p_aggregator p) = ADJ_LINES_FUNC ->
  invocation_of inv c -> reads_one c v -> ~ uses_any inv ["--help"; "--version"] -> is_tr o B ->
  lines_ok B p c v (fun s => one_stream (squeeze (tr_squeezes o (map (wflag_of c s) (v_flags c)) (map (word_of c s) (v_ops c))))).
Proof.
  intros text inv p c v B o PA C OF K IN R NH TB.
  destruct (C78_asked _ _ _ OF K) as [(_ & _ & _ & _ & I)|(C' & _)]; [|congruence].
  assert (G : forall s, given (map (wflag_of c s) (v_flags c)) ["--help"; "--version"] = false) by (intros s; now apply (given_unused inv)).
  apply (lines_sound B p c v tr_placeholder _ (fun s => tr_output o (map (wflag_of c s) (v_flags c)) (map (word_of c s) (v_ops c))) R I).
  - intros s. unfold tr_output. now rewrite G.
  - intros s a b _. exact (tr_again o _ _ a b (G s)).
  - intros s. now apply (tr_runs text inv).
Qed.
Print Assumptions C78_squeeze_again.
(** The function that the generator names is right exactly in these cases. *)
Theorem C78_drop_iff : forall text inv p c v B o,
  parse shipped_dir text = Ok inv -> cmd_name inv = "tr" -> offered shipped_dir inv p -> agg_kind_of (p_aggregator p) = ADJ_LINES_FUNC ->
  invocation_of inv c -> reads_one c v -> tight c -> ~ uses_any inv ["--help"; "--version"] -> is_tr o B ->
  lines_ok B p c v (fun _ => drop_empty) <->
  forall s, drops_right o (map (wflag_of c s) (v_flags c)) (map (word_of c s) (v_ops c)).
Proof.
  intros text inv p c v B o PA C OF K IN R T NH TB.
  destruct (C78_asked _ _ _ OF K) as [(_ & ND & _ & _ & I)|(C' & _)]; [|congruence].
  assert (G : forall s, given (map (wflag_of c s) (v_flags c)) ["--help"; "--version"] = false) by (intros s; now apply (given_unused inv)).
  assert (D : forall s, given (map (wflag_of c s) (v_flags c)) ["-d"] = false)
    by (intros s; apply (given_unused inv); [exact IN|]; intros (n & [<-|[]] & U); contradiction).
  split.
  - intros OK s. apply tr_drop_only; auto. intros a b EA.
    apply (lines_complete B p c v tr_placeholder s (fun _ => drop_empty) (tr_output o _ _) a b R T I EA); auto. now apply (tr_runs text inv).
  - intros DR. apply (lines_sound B p c v tr_placeholder _ (fun s => tr_output o (map (wflag_of c s) (v_flags c)) (map (word_of c s) (v_ops c))) R I).
    + intros s. unfold tr_output. now rewrite G.
    + intros s. now apply tr_drop.
    + intros s. now apply (tr_runs text inv).
Qed.
Print Assumptions C78_drop_iff.
(** Breaking a text into words: every set with which other characters become newlines *)
Definition tr_break : civ := filter_civ "tr" [FFlag "-c"; FFlag "-s"] [PArg "A-Za-z"; PArg "'\n'"].
Example C78_drop_words : forall B o, is_tr o B -> tr_set o "'\n'" newline = true -> tr_char o true false "A-Za-z" "'\n'" newline = newline ->
  let inv := mkInv "tr" [Flag "-c"; Flag "-s"] ["A-Za-z"; "'\n'"] in
  parse shipped_dir (String "t" "r -cs A-Za-z ""'\n'""") = Ok inv /\ forall p, In p (stateless tr_placeholder) ->
  offered shipped_dir inv p /\ lines_ok B p tr_break 1 (fun _ => drop_empty).
Proof.
  intros B o TB S M inv. assert (P : parse shipped_dir (String "t" "r -cs A-Za-z ""'\n'""") = Ok inv) by (vm_compute; reflexivity).
  split; [exact P|]. intros p I.
  assert (O : offered shipped_dir inv p) by (eapply offered_first; [vm_compute; reflexivity|exact I]). split; [exact O|].
  eapply (C78_drop_iff _ _ _ tr_break 1 B o P eq_refl O); auto.
  - destruct I as [<-|[<-|[]]]; reflexivity.
  - split; reflexivity.
  - now apply filter_civ_reads.
  - now apply filter_civ_tight.
  - intros (n & J & U). apply uses_in in U. cbn in J, U. intuition subst; discriminate.
  - intros s. left. unfold tr_image, tr_squeezes. cbn -[newline]. now rewrite S, M.
Qed.
(** Refuted: newlines may be translated to something else. *)
Definition tr_other : civ := filter_civ "tr" [FFlag "-s"] [PArg "\na"; PArg "x\n"].
Theorem C78_drop_refuted : exists inv, parse shipped_dir "tr -s '\na' 'x\n'" = Ok inv /\ invocation_of inv tr_other /\ reads_one tr_other 1 /\
  forall p, In p (stateless tr_placeholder) -> offered shipped_dir inv p /\ lines_wrong simple_system p tr_other 1 (fun _ => drop_empty).
Proof.
  assert (P : parse shipped_dir "tr -s '\na' 'x\n'" = Ok (mkInv "tr" [Flag "-s"] ["\na"; "x\n"])) by (vm_compute; reflexivity).
  eexists. split; [exact P|]. split; [split; reflexivity|]. split; [now apply filter_civ_reads|]. intros p I.
  split; [eapply offered_first; [vm_compute; reflexivity|exact I]|].
  destruct (lines_two simple_system p tr_other 1 tr_placeholder (fun _ => drop_empty)
    (tr_output simple_tr (map (wflag_of tr_other (fun _ => "")) (v_flags tr_other)) (map (word_of tr_other (fun _ => "")) (v_ops tr_other)))
    (fun _ => "") (String newline "") "a") as (s' & t & FR & D & Si & (W1 & W2) & E).
  - now apply filter_civ_reads.
  - now apply filter_civ_tight.
  - exact I.
  - right. now exists "".
  - eapply tr_runs; [exact P|reflexivity|split; reflexivity|exact simple_is_tr].
  - exists s', t. eexists. split; [exact FR|]. split; [exact D|]. split; [exact E|]. intros sd X.
    rewrite (run_original simple_system sd tr_other 1 s') in X by now apply filter_civ_reads.
    rewrite W1, W2, Si in X. vm_compute in X. discriminate X.
Qed.
Print Assumptions C78_drop_refuted.

(** ** uniq -c
    Adding up the numbers if the lines without them are merged is right. *)
Lemma count_runs text inv c s o B : parse shipped_dir text = Ok inv -> cmd_name inv = "uniq" -> invocation_of inv c ->
  ~ uses_any inv ["-"; "-D"; "--all-repeated"; "--group"] -> is_counting_uniq o B ->
  known uniq_names (map (wflag_of c s) (v_flags c)) /\
  given (map (wflag_of c s) (v_flags c)) ["-D"; "--all-repeated"; "--group"] = false /\
  forall sd x, B sd (v_cmd c) (map (wflag_of c s) (v_flags c)) (map (word_of c s) (v_ops c)) [x] = uniq_lines o (map (wflag_of c s) (v_flags c)) x.
Proof.
  intros PA C IN N (_ & HB). assert (CN : v_cmd c = "uniq") by (destruct IN as (-> & _); exact C).
  assert (KN : known uniq_names (map (wflag_of c s) (v_flags c))).
  { assert (KN : known ("-" :: uniq_names) (map (wflag_of c s) (v_flags c))).
    { eapply parse_known; eauto; [rewrite C; left; vm_compute; reflexivity|vm_compute; reflexivity]. }
    unfold known in *. rewrite Forall_forall in KN |- *. intros f J. destruct (KN f J) as [E|E]; [|exact E]. exfalso. apply N.
    exists "-". split; [now left|]. apply uses_in. rewrite <- (names_eq inv c s IN), E. now apply in_map. }
  assert (G : given (map (wflag_of c s) (v_flags c)) ["-D"; "--all-repeated"; "--group"] = false).
  { apply (given_unused inv); [exact IN|]. apply (unused_sub inv _ _ N). intros n; cbn; tauto. }
  repeat split; auto. intros sd x. rewrite CN. now apply HB.
Qed.
Theorem C78_count_merge : forall text inv p c v B o,
  parse shipped_dir text = Ok inv -> cmd_name inv = "uniq" -> offered shipped_dir inv p -> uses inv "-c" ->
  invocation_of inv c -> reads_one c v -> ~ uses_any inv ["-"; "--group"; "-u"; "-z"; "--help"; "--version"] -> is_counting_uniq o B ->
  (forall fl x y, uniq_same o (without_count fl) x y = uniq_same o fl x y) ->
  lines_ok B p c v (fun s => one_stream (count_merge (merged_by B (map (wflag_of c s) (v_flags c)) (map (word_of c s) (v_ops c))))).
Proof.
  intros text inv p c v B o PA C OF UC IN R NU CB WC. pose proof (uniq_offered_plain inv p C OF) as UD.
  assert (K : agg_kind_of (p_aggregator p) = ADJ_LINES_FUNC /\ In p (stateless uniq_placeholder)).
  { destruct (offered_aggregator _ _ _ OF) as (i & q & G & I & _ & E & EQ).
    assert (A : annotated shipped_dir inv (Some (parallelizer_list i, is_commutative i))) by (apply C25_exact; now rewrite G).
    clear G. revert A I EQ. generalize (parallelizer_list i) as pl. generalize (is_commutative i) as b. intros b pl A I EQ.
    inversion A; subst; try (exfalso; cbn in *; intuition congruence).
    - rewrite EQ by reflexivity. split; [destruct I as [<-|[<-|[]]]; reflexivity|exact I].
    - exfalso. match goal with H : ~ uses_any inv _ |- _ => apply H; exists "-c"; cbn; tauto end. }
  destruct K as (K & I).
  assert (N : ~ uses_any inv ["-"; "-D"; "--all-repeated"; "--group"]).
  { intros (n & J & U). cbn in J. destruct J as [<-|[<-|[<-|[<-|[]]]]]; [apply NU|apply UD|apply UD|apply NU]; eexists; (split; [|exact U]); cbn; tauto. }
  assert (G : forall s l, incl l ["-d"; "-u"; "-z"; "--help"; "--version"] -> given (map (wflag_of c s) (v_flags c)) l = false).
  { intros s l J. apply (given_unused inv); [exact IN|]. intros (n & X & U). apply J in X. cbn in X.
    destruct X as [<-|X]; [apply UD; exists "-d"; cbn; tauto|]. apply NU. exists n. split; [|exact U]. cbn. tauto. }
  assert (Gc : forall s, given (map (wflag_of c s) (v_flags c)) ["-c"] = true) by (intros s; apply (given_uses inv); [exact IN|]; exists "-c"; cbn; auto).
  apply (lines_sound B p c v uniq_placeholder _ (fun s => uniq_lines o (map (wflag_of c s) (v_flags c))) R I).
  - intros s. unfold uniq_lines. rewrite !G by (intros y; cbn; tauto). reflexivity.
  - intros s a b EA. rewrite !counted_output by (try apply Gc; apply G; intros y; cbn; tauto).
    destruct (count_runs text inv c s o B PA C IN N CB) as (KN & GD & _).
    apply count_adjacent; [apply (proj1 CB)| |exact EA]. intros x y X Y. apply (merged_by_same o); auto. apply G. intros z; cbn; tauto.
  - intros s. now apply (count_runs text inv).
Qed.
Print Assumptions C78_count_merge.
Lemma count_stateless inv p : cmd_name inv = "uniq" -> offered shipped_dir inv p -> uses inv "-c" -> In p (stateless uniq_placeholder).
Proof.
  intros C OF UC. destruct (offered_aggregator _ _ _ OF) as (i & q & G & I & _ & E & EQ).
  assert (A : annotated shipped_dir inv (Some (parallelizer_list i, is_commutative i))) by (apply C25_exact; now rewrite G).
  clear G. revert A I EQ. generalize (parallelizer_list i) as pl. generalize (is_commutative i) as b. intros b pl A I EQ.
  inversion A; subst; try (exfalso; cbn in *; intuition congruence).
  - rewrite EQ by reflexivity. exact I.
  - exfalso. match goal with H : ~ uses_any inv _ |- _ => apply H; exists "-c"; cbn; tauto end.
Qed.
Definition counting_system (o : uniq_oracle) : behaviour := fun _ _ fl _ inputs => uniq_lines o fl (joined inputs).
Lemma counting_system_ok o : (forall fl, equivalence (uniq_same o fl)) -> is_counting_uniq o (counting_system o).
Proof. intros H. split; [exact H|]. intros. unfold counting_system. cbn [joined fold_right]. now rewrite append_nil. Qed.
(** Numbers of the same line in three parts; 9 and 1 lines make 10. *)
Example C78_count_case : exists inv c, parse shipped_dir "uniq -ci" = Ok inv /\ invocation_of inv c /\
  forall p, In p (stateless uniq_placeholder) -> offered shipped_dir inv p /\ exists f, lines_ok (counting_system case_uniq) p c 1 f.
Proof.
  assert (P : parse shipped_dir "uniq -ci" = Ok (mkInv "uniq" [Flag "-c"; Flag "-i"] [])) by (vm_compute; reflexivity).
  exists (mkInv "uniq" [Flag "-c"; Flag "-i"] []), (filter_civ "uniq" [FFlag "-c"; FFlag "-i"] []).
  split; [exact P|]. split; [split; reflexivity|]. intros p I.
  assert (O : offered shipped_dir (mkInv "uniq" [Flag "-c"; Flag "-i"] []) p) by (eapply offered_first; [vm_compute; reflexivity|exact I]).
  split; [exact O|]. eexists. eapply (C78_count_merge _ _ p _ 1 (counting_system case_uniq) case_uniq P eq_refl O).
  - apply uses_in. now left.
  - split; reflexivity.
  - now apply filter_civ_reads.
  - intros (n & J & U). apply uses_in in U. cbn in J, U. intuition subst; discriminate.
  - apply counting_system_ok, case_uniq_equivalence.
  - intros fl x y. cbn. assert (E : given (without_count fl) ["-i"] = given fl ["-i"]); [|now rewrite E].
    unfold given, without_count. induction fl as [|f fl IH]; [reflexivity|]. cbn [filter existsb].
    destruct (String.eqb_spec (wflag_name f) "-c") as [Ec|N]; cbn [negb existsb]; rewrite IH; [now rewrite Ec|reflexivity].
Qed.
Example C78_count_computed :
  let f := one_stream (count_merge (fun x y => String.eqb x y)) in
  combine_lines f ["      2 a
      9 b
"; "      1 b
"; ""; "      3 b
      1 a
"] = "      2 a
     13 b
      1 a
".
Proof. vm_compute. reflexivity. Qed.
(** With -u no function of adjacent lines is right, however lines are compared. *)
Theorem C78_unique_impossible : forall text inv p c v B o f,
  parse shipped_dir text = Ok inv -> cmd_name inv = "uniq" -> offered shipped_dir inv p -> uses inv "-c" -> uses inv "-u" ->
  invocation_of inv c -> reads_one c v -> tight c -> ~ uses_any inv ["-"; "--group"; "-z"; "--help"; "--version"] -> is_counting_uniq o B ->
  lines_wrong B p c v f.
Proof.
  intros text inv p c v B o f PA C OF UC UU IN R T NU CB. pose proof (uniq_offered_plain inv p C OF) as UD.
  pose proof (count_stateless inv p C OF UC) as I.
  assert (N : ~ uses_any inv ["-"; "-D"; "--all-repeated"; "--group"]).
  { intros (n & J & U). cbn in J. destruct J as [<-|[<-|[<-|[<-|[]]]]]; [apply NU|apply UD|apply UD|apply NU]; eexists; (split; [|exact U]); cbn; tauto. }
  apply (lines_differs B p c v uniq_placeholder (fun _ => "") f (uniq_lines o (map (wflag_of c (fun _ => "")) (v_flags c)))
    (String newline (String newline "")) (String newline "") R T I).
  - right. now exists (String newline "").
  - now apply (count_runs text inv).
  - intros g. set (fl := map (wflag_of c (fun _ => "")) (v_flags c)).
    assert (G : forall l, incl l ["-z"; "--help"; "--version"] -> given fl l = false).
    { intros l J. apply (given_unused inv); [exact IN|]. apply (unused_sub inv _ l NU). intros y Y. apply J in Y. cbn in *. tauto. }
    assert (Gd : given fl ["-d"] = false) by (apply (given_unused inv); [exact IN|]; intros (n & [<-|[]] & U); apply UD; exists "-d"; cbn; auto).
    assert (Gu : given fl ["-u"] = true) by (apply (given_uses inv); [exact IN|]; exists "-u"; cbn; auto).
    assert (Gc : given fl ["-c"] = true) by (apply (given_uses inv); [exact IN|]; exists "-c"; cbn; auto).
    assert (E : uniq_same o fl "" "" = true) by (apply (proj1 CB)).
    unfold uniq_lines. rewrite (G ["--help"; "--version"]), (G ["-z"]) by (intros y; cbn; tauto).
    change (records newline (String newline (String newline "") +++ String newline "")) with [""; ""; ""].
    change (records newline (String newline (String newline ""))) with [""; ""]. change (records newline (String newline "")) with [""].
    cbn [blocks]. rewrite !E.
    cbn [filter]. unfold selected. rewrite Gd, Gu. cbn [negb orb andb length Nat.leb filter map]. unfold shown_block. rewrite Gc. vm_compute. discriminate.
Qed.
Print Assumptions C78_unique_impossible.
(** For every way to compare lines there is a right function exactly if none of these is given. *)
Definition plain_help : uniq_oracle := mkUniq (fun _ => String.eqb) "a
b
c
".
Theorem C78_count_iff : forall text inv p c v,
  parse shipped_dir text = Ok inv -> cmd_name inv = "uniq" -> offered shipped_dir inv p -> uses inv "-c" ->
  invocation_of inv c -> reads_one c v -> tight c -> ~ uses_any inv ["-"; "--group"] ->
  (forall B o, is_counting_uniq o B -> (forall fl x y, uniq_same o (without_count fl) x y = uniq_same o fl x y) -> exists f, lines_ok B p c v f) <->
  ~ uses_any inv ["-u"; "-z"; "--help"; "--version"].
Proof.
  intros text inv p c v PA C OF UC IN R T NU. pose proof (uniq_offered_plain inv p C OF) as UD.
  pose proof (count_stateless inv p C OF UC) as I.
  assert (N : ~ uses_any inv ["-"; "-D"; "--all-repeated"; "--group"]).
  { intros (n & J & U). cbn in J. destruct J as [<-|[<-|[<-|[<-|[]]]]]; [apply NU|apply UD|apply UD|apply NU]; eexists; (split; [|exact U]); cbn; tauto. }
  split.
  - intros H U. assert (CB := counting_system_ok plain_help (fun _ => eqb_equivalence)).
    destruct (H _ _ CB (fun _ _ _ => eq_refl)) as (f & OK). apply (lines_not_wrong _ _ _ _ _ OK). clear H OK.
    set (fl := map (wflag_of c (fun _ => "")) (v_flags c)).
    assert (HB := proj2 (proj2 (count_runs text inv c (fun _ => "") _ _ PA C IN N CB))). fold fl in HB.
    assert (Gd : given fl ["-d"] = false) by (apply (given_unused inv); [exact IN|]; intros (n & [<-|[]] & V); apply UD; exists "-d"; cbn; auto).
    assert (Gc : given fl ["-c"] = true) by (apply (given_uses inv); [exact IN|]; exists "-c"; cbn; auto).
    destruct (given fl ["--help"; "--version"]) eqn:GH.
    { eapply (lines_differs _ p c v uniq_placeholder (fun _ => "") f _ "" "" R T I); [now left|exact HB|].
      intros g. cbn [String.append]. unfold uniq_lines. rewrite GH. 
      set (w := uniq_help plain_help).
      assert (L : String.length (adjacent_lines g w w) > String.length w).
      { unfold adjacent_lines. change (raw_lines w) with [String "a" (String newline ""); String "b" (String newline ""); String "c" (String newline "")].
        cbn [rev app]. rewrite !append_length. cbn. lia. }
      intros X. rewrite <- X in L. lia. }
    destruct (given fl ["-z"]) eqn:GZ.
    { eapply (lines_differs _ p c v uniq_placeholder (fun _ => "") f _ (String newline (String nul (String newline ""))) "z" R T I); [|exact HB|].
      - right. now exists (String newline (String nul "")).
      - intros g. unfold uniq_lines. rewrite GH, GZ. cbn. unfold selected. rewrite Gd. destruct (given fl ["-u"]);
          cbn; unfold shown_block; rewrite ?Gc; vm_compute; discriminate. }
    assert (GU : given fl ["-u"] = true).
    { apply (given_uses inv); [exact IN|]. destruct U as (n & J & U).
      assert (X : forall l, given fl l = false -> ~ In n l).
      { intros l E X. assert (Y : given fl l = true) by (apply (given_uses inv); [exact IN|]; now exists n). congruence. }
      apply X in GH. apply X in GZ. exists n. split; [cbn in *; tauto|exact U]. }
    assert (UU : uses inv "-u") by (apply (given_uses inv) in GU; [|exact IN]; destruct GU as (n & [<-|[]] & X); exact X).
    eapply C78_unique_impossible; eauto. intros (n & J & V). cbn in J.
    destruct J as [<-|[<-|J]]; [apply NU; eexists; (split; [|exact V]); cbn; tauto..|].
    assert (X : given fl ["-z"; "--help"; "--version"] = true) by (apply (given_uses inv); [exact IN|]; exists n; split; [cbn; tauto|exact V]).
    change ["-z"; "--help"; "--version"] with (["-z"] ++ ["--help"; "--version"]) in X. rewrite given_split, GZ, GH in X. discriminate.
  - intros NB B o CB WC. eexists. eapply C78_count_merge; eauto. intros (n & J & V). cbn in J.
    destruct J as [<-|[<-|J]]; [apply NU; eexists; (split; [|exact V]); cbn; tauto..|]. apply NB. exists n. split; [cbn; tauto|exact V].
Qed.
Print Assumptions C78_count_iff.
(** "-d ... renders parallelization infeasible": no function of adjacent lines makes the results
    of uniq -d right, with or without -c, for consecutive chunks. *)
Theorem C78_repeated_impossible : forall text inv p k c v B o f,
  parse shipped_dir text = Ok inv -> cmd_name inv = "uniq" -> In p (stateless k) -> uses inv "-d" ->
  invocation_of inv c -> reads_one c v -> tight c ->
  ~ uses_any inv ["-"; "-D"; "--all-repeated"; "--group"; "-u"; "-z"; "--help"; "--version"] -> is_counting_uniq o B ->
  ~ offered shipped_dir inv p /\ lines_wrong B p c v f.
Proof.
  intros text inv p k c v B o f PA C I U IN R T NU CB. split.
  { intros OF. apply (uniq_offered_plain inv p C OF). exists "-d". cbn. auto. }
  assert (N : ~ uses_any inv ["-"; "-D"; "--all-repeated"; "--group"]) by (apply (unused_sub inv _ _ NU); intros n; cbn; tauto).
  apply (lines_differs B p c v k (fun _ => "") f (uniq_lines o (map (wflag_of c (fun _ => "")) (v_flags c)))
    (String newline "") (String newline "") R T I).
  - right. now exists "".
  - now apply (count_runs text inv).
  - intros g. set (fl := map (wflag_of c (fun _ => "")) (v_flags c)).
    assert (G : forall l, incl l ["-u"; "-z"; "--help"; "--version"] -> given fl l = false).
    { intros l J. apply (given_unused inv); [exact IN|]. apply (unused_sub inv _ l NU). intros y Y. apply J in Y. cbn in *. tauto. }
    assert (Gd : given fl ["-d"] = true) by (apply (given_uses inv); [exact IN|]; exists "-d"; cbn; auto).
    assert (E : uniq_same o fl "" "" = true) by (apply (proj1 CB)).
    unfold uniq_lines. rewrite (G ["--help"; "--version"]), (G ["-z"]) by (intros y; cbn; tauto).
    change (records newline (String newline "" +++ String newline "")) with [""; ""]. change (records newline (String newline "")) with [""].
    cbn [blocks]. rewrite !E.
    cbn [filter]. unfold selected. rewrite Gd, (G ["-u"]) by (intros y; cbn; tauto). cbn [negb orb andb length Nat.leb filter map].
    unfold shown_block. destruct (given fl ["-c"]); vm_compute; discriminate.
Qed.
Print Assumptions C78_repeated_impossible.
(** The combination agrees with that of SpecSem3.v, and so do the specifications of uniq. *)
Theorem C78_agrees : (forall g x y, ends_line x -> ends_line y -> adjacent_lines (one_stream g) x y = adjacent g x y) /\
  (forall o fl x, given fl ["-c"; "-d"] = false -> given fl ["--group"] = false -> uniq_lines o fl x = uniq_output o fl x).
Proof. split; [exact adjacent_same|exact uniq_same_spec]. Qed.
Print Assumptions C78_agrees.
Example C78_repeated_case : exists inv, parse shipped_dir "uniq -d -c" = Ok inv /\ forall f,
  lines_wrong (counting_system case_uniq) (chunks SpecPara.concat) (filter_civ "uniq" [FFlag "-d"; FFlag "-c"] []) 1 f.
Proof.
  assert (P : parse shipped_dir "uniq -d -c" = Ok (mkInv "uniq" [Flag "-d"; Flag "-c"] [])) by (vm_compute; reflexivity).
  eexists. split; [exact P|]. intros f. eapply (C78_repeated_impossible _ _ _ SpecPara.concat _ _ _ case_uniq f P); auto.
  - now left.
  - apply uses_in. now left.
  - split; reflexivity.
  - now apply filter_civ_reads.
  - now apply filter_civ_tight.
  - intros (n & J & U). apply uses_in in U. cbn in J, U. intuition subst; discriminate.
  - apply counting_system_ok, case_uniq_equivalence.
Qed.
