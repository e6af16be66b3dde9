(** * Sound parallelization (C50, C51, C58)
    [parallel_ok] is in SpecSem.v: every plan built from the mapper and the aggregator that the
    code returns computes what the original command computes. *)
From Coq Require Import Lia.
Require Import Verif.PyBase Verif.JsonData Verif.Parser Verif.Access Verif.IOInfo Verif.IOVars
  Verif.Transformers Verif.ParaTypes Verif.ParaGen Verif.MapperAgg Verif.SpecLists Verif.SpecIO Verif.SpecVars Verif.SpecPara
  Verif.ParserFacts Verif.ParaProps Verif.ShippedData Verif.P_Para Verif.SpecSem Verif.SemFacts Verif.SemRun Verif.SemProps Verif.SemSystem.

(** Every plan has at most one result, so that [parallel_ok] speaks about all results. *)
Theorem C50_one_result : forall B dir p c s t r r',
  evaluates B dir p c s t r -> evaluates B dir p c s t r' -> r = r'.
Proof. intros B dir p c s t r r'. apply evaluates_fun. Qed.
Print Assumptions C50_one_result.

(** ** C50: sort *)
(** Sorting the parts, dealt out in any way, and merging in any binary tree sorts the whole. *)
Theorem C50_sort_partial : forall text inv p c v B o dir,
  parse shipped_dir text = Ok inv -> cmd_name inv = "sort" -> offered shipped_dir inv p ->
  invocation_of inv c -> reads_one c v -> ~ uses_any inv ["--help"; "--version"; "--debug"; "-o"] ->
  is_sort o B -> sort_oracle_ok o ->
  (forall s seed seed', key_le o seed (map (wflag_of c s) (v_flags c)) = key_le o seed' (map (wflag_of c s) (v_flags c))) ->
  parallel_ok B dir p c v (fun n => n = 2) (fun _ => True).
Proof. exact sort_sound. Qed.
Print Assumptions C50_sort_partial.
Lemma offered_first inv i p : get_parallelizability_info shipped_dir inv = Some i -> In p (parallelizer_list i) -> offered shipped_dir inv p.
Proof.
  intros G I. destruct (C27_inferred i) as (copies & CC & X). cbv zeta in X.
  exists i, 1. do 3 eexists. split; [exact G|]. split; [econstructor; [exact X|constructor]|]. split; [now left|].
  apply in_app_iff. now left.
Qed.
Lemma offered_copy inv i p : get_parallelizability_info shipped_dir inv = Some i -> is_commutative i = true ->
  In p (parallelizer_list i) -> p_splitter p = CONSEC_CHUNKS ->
  offered shipped_dir inv (with_splitter ROUND_ROBIN_UNWRAP_FLAG p).
Proof.
  intros G C I S. destruct (C27_inferred i) as (copies & CC & X). cbv zeta in X. rewrite C in X.
  exists i, 1. do 3 eexists. split; [exact G|]. split; [econstructor; [exact X|constructor]|]. split; [now left|].
  apply in_app_iff. right. clear X. revert I. induction CC as [|q l l' Q _ IH|q l l' Q _ IH]; [intros []| |].
  - intros [->|I]; [now left|right; auto].
  - intros [->|I]; [contradiction|auto].
Qed.
Definition sort_rn : civ := filter_civ "sort" [FFlag "-r"; FFlag "-n"] [].
(** sort -rn with both splitters *)
Example C50_sort_case : exists inv,
  parse shipped_dir "sort -rn" = Ok inv /\ invocation_of inv sort_rn /\
  parallel_ok simple_system shipped_dir (chunks sort_merge) sort_rn 1 (fun n => n = 2) (fun _ => True) /\
  parallel_ok simple_system shipped_dir (with_splitter ROUND_ROBIN_UNWRAP_FLAG (chunks sort_merge)) sort_rn 1
    (fun n => n = 2) (fun _ => True).
Proof.
  assert (P : parse shipped_dir "sort -rn" = Ok (mkInv "sort" [Flag "-r"; Flag "-n"] [])) by (vm_compute; reflexivity).
  eexists. split; [exact P|]. split; [split; reflexivity|].
  assert (X : forall p, offered shipped_dir (mkInv "sort" [Flag "-r"; Flag "-n"] []) p ->
    parallel_ok simple_system shipped_dir p sort_rn 1 (fun n => n = 2) (fun _ => True)).
  { intros p O. eapply (C50_sort_partial _ _ p sort_rn 1 simple_system simple_sort shipped_dir P eq_refl O).
    - split; reflexivity.
    - now apply filter_civ_reads.
    - intros (n & I & U). apply uses_in in U. cbn in I, U. intuition subst; discriminate.
    - exact simple_is_sort.
    - exact simple_sort_ok.
    - intros s seed seed'. now apply simple_key_seed. }
  split; apply X.
  - eapply offered_first; [vm_compute; reflexivity|]. now left.
  - eapply offered_copy; [vm_compute; reflexivity|reflexivity|now left|reflexivity].
Qed.
(** ... and what a plan computes: three parts of the lines of the input in any order *)
Definition sort_store : store := connect [1; 3; 5; 7]%Z ["b
d
a
c
e
"; "e
b
"; "a
d
"; "c
"] (fun _ => "").
Definition sort_plan : plan := Node 10 0 [Leaf 3 4 1; Node 9 2 [Leaf 5 6 3; Leaf 7 8 4]].
Example C50_sort_computed :
  evaluates simple_system shipped_dir (with_splitter ROUND_ROBIN_UNWRAP_FLAG (chunks sort_merge)) sort_rn sort_store sort_plan "e
d
c
b
a
".
Proof.
  destruct C50_sort_case as (inv & _ & _ & _ & OK).
  specialize (OK sort_store sort_plan 0). replace (run simple_system 0 sort_rn sort_store) with "e
d
c
b
a
" in OK by (vm_compute; reflexivity). apply OK.
  - split; [cbn; repeat constructor; cbn; lia|]. now apply filter_civ_fresh.
  - cbn. repeat split.
  - exact I.
  - cbn [distributes p_splitter with_splitter]. vm_compute lines. vm_compute map. vm_compute flat_map.
    apply NoDup_Permutation; [repeat constructor; cbn; intuition discriminate..|]. intros x. cbn. tauto.
Qed.

(** Refuted: sort --sort random has the same parallelizer, although -R has none.  A plan may
    give a result that sort never gives. *)
Definition sort_random : civ := filter_civ "sort" [FOptIO "--sort" (PArg "random")] [].
Definition random_store : store := connect [1; 3; 5]%Z ["A
C
B
D
"; "A
C
"; "B
D
"] (fun _ => "").
Lemma simple_sort_parity seed fl inputs :
  sort_output simple_sort seed fl inputs = sort_output simple_sort (if Nat.even seed then 0 else 1) fl inputs.
Proof.
  assert (K : key_le simple_sort seed fl = key_le simple_sort (if Nat.even seed then 0 else 1) fl).
  { cbn. unfold simple_key. destruct (Nat.even seed); reflexivity. }
  unfold sort_output. rewrite K. rewrite (line_le_ext simple_sort seed (if Nat.even seed then 0 else 1) fl fl K); reflexivity.
Qed.
Lemma run_parity seed c s : v_cmd c = "sort" ->
  run simple_system seed c s = run simple_system (if Nat.even seed then 0 else 1) c s.
Proof. intros C. unfold run. rewrite C. apply simple_sort_parity. Qed.
Theorem C50_random_refuted : exists inv p B o,
  parse shipped_dir "sort --sort random" = Ok inv /\ offered shipped_dir inv p /\ invocation_of inv sort_random /\
  reads_one sort_random 1 /\ is_sort o B /\ sort_oracle_ok o /\
  parallel_wrong B shipped_dir p sort_random 1 (fun n => n = 2) (fun _ => True).
Proof.
  eexists. exists (chunks sort_merge), simple_system, simple_sort. split; [vm_compute; reflexivity|].
  split; [eapply offered_first; [vm_compute; reflexivity|now left]|]. split; [split; reflexivity|].
  split; [now apply filter_civ_reads|]. split; [exact simple_is_sort|]. split; [exact simple_sort_ok|].
  exists random_store, (Node 7 0 [Leaf 3 4 0; Leaf 5 6 1]). eexists. split; [|split; [|split; [|split; [|split]]]].
  - split; [cbn; repeat constructor; cbn; lia|]. now apply filter_civ_fresh.
  - cbn. repeat split.
  - exact I.
  - split; [reflexivity|]. cbn. constructor; [|constructor]. right. exists "A
C". reflexivity.
  - eapply ev_node; [eapply ev_cons; [eapply ev_leaf|eapply ev_cons; [eapply ev_leaf|constructor]]| |];
      try (vm_compute; reflexivity); split; try reflexivity; vm_compute; auto.
  - intros seed. rewrite (run_parity seed) by reflexivity. destruct (Nat.even seed); vm_compute; discriminate.
Qed.
Print Assumptions C50_random_refuted.
(** Refuted: with --debug the lines added by the parts are sorted as if they were data. *)
Definition sort_debug : civ := filter_civ "sort" [FFlag "--debug"] [].
Theorem C50_debug_refuted : exists inv p B o,
  parse shipped_dir "sort --debug" = Ok inv /\ offered shipped_dir inv p /\ invocation_of inv sort_debug /\
  reads_one sort_debug 1 /\ is_sort o B /\ sort_oracle_ok o /\
  parallel_wrong B shipped_dir p sort_debug 1 (fun n => n = 2) (fun _ => True).
Proof.
  eexists. exists (chunks sort_merge), simple_system, simple_sort. split; [vm_compute; reflexivity|].
  split; [eapply offered_first; [vm_compute; reflexivity|now left]|]. split; [split; reflexivity|].
  split; [now apply filter_civ_reads|]. split; [exact simple_is_sort|]. split; [exact simple_sort_ok|].
  exists random_store, (Node 7 0 [Leaf 3 4 0; Leaf 5 6 1]). eexists. split; [|split; [|split; [|split; [|split]]]].
  - split; [cbn; repeat constructor; cbn; lia|]. now apply filter_civ_fresh.
  - cbn. repeat split.
  - exact I.
  - split; [reflexivity|]. cbn. constructor; [|constructor]. right. exists "A
C". reflexivity.
  - eapply ev_node; [eapply ev_cons; [eapply ev_leaf|eapply ev_cons; [eapply ev_leaf|constructor]]| |];
      try (vm_compute; reflexivity); split; try reflexivity; vm_compute; auto.
  - intros seed. rewrite (run_parity seed) by reflexivity. destruct (Nat.even seed); vm_compute; discriminate.
Qed.
Print Assumptions C50_debug_refuted.

(** ** C51: grep and cut *)
Theorem C51_grep_partial : forall text inv p c v B o dir,
  parse shipped_dir text = Ok inv -> cmd_name inv = "grep" -> offered shipped_dir inv p ->
  invocation_of inv c -> reads_one c v -> ~ uses_any inv grep_unsafe -> is_grep o B -> is_cat B ->
  parallel_ok B dir p c v (fun n => n <> 0) (fun input => is_text input \/ uses inv "-a").
Proof. exact grep_sound. Qed.
Print Assumptions C51_grep_partial.
Definition grep_v : civ := filter_civ "grep" [FFlag "-v"; FFlag "-i"] [PArg "a"].
Example C51_grep_case : exists inv, parse shipped_dir "grep -vi a" = Ok inv /\ invocation_of inv grep_v /\
  forall p, In p (stateless SpecPara.concat) ->
    parallel_ok simple_system shipped_dir p grep_v 1 (fun n => n <> 0) (fun input => is_text input \/ uses inv "-a").
Proof.
  assert (P : parse shipped_dir "grep -vi a" = Ok (mkInv "grep" [Flag "-v"; Flag "-i"] ["a"])) by (vm_compute; reflexivity).
  eexists. split; [exact P|]. split; [split; reflexivity|]. intros p I.
  eapply (C51_grep_partial _ _ p grep_v 1 simple_system simple_grep shipped_dir P eq_refl).
  - eapply offered_first; [vm_compute; reflexivity|exact I].
  - split; reflexivity.
  - now apply filter_civ_reads.
  - intros (n & J & U). apply uses_in in U. cbn in J, U. intuition subst; discriminate.
  - exact simple_is_grep.
  - exact simple_is_cat.
Qed.
(** Refuted, for each of the following invocations: grep with a limit on the number of lines, with context, or with records
    that are not lines. *)
Definition grep_wrong : list (string * list flag_el * string * string) :=
  [("grep -m 1 a", [FOptIO "-m" (PArg "1")], "a
", "a
"); ("grep --max-count 1 a", [FOptIO "--max-count" (PArg "1")], "a
", "a
"); ("grep -A 1 a", [FOptIO "-A" (PArg "1")], "a
", "b
"); ("grep -B 1 a", [FOptIO "-B" (PArg "1")], "b
", "a
"); ("grep -C 1 a", [FOptIO "-C" (PArg "1")], "a
", "b
"); ("grep --context 1 a", [FOptIO "--context" (PArg "1")], "b
", "a
"); ("grep -z a", [FFlag "-z"], "a
", "b
"); ("grep -n -m 5 a", [FFlag "-n"; FOptIO "-m" (PArg "5")], "a
a
a
", "a
a
a
"); ("grep -c -A 1 a", [FFlag "-c"; FOptIO "-A" (PArg "1")], "a
", "a
"); ("grep --help a", [FFlag "--help"], "", "")].
Theorem C51_grep_refuted : forall text flags first second, In (text, flags, first, second) grep_wrong ->
  exists inv, parse shipped_dir text = Ok inv /\
  let c := filter_civ "grep" flags [PArg "a"] in
  invocation_of inv c /\ reads_one c 1 /\ is_text (first +++ second) /\
  forall p, In p (stateless SpecPara.concat) ->
    offered shipped_dir inv p /\
    parallel_wrong simple_system shipped_dir p c 1 (fun n => n <> 0) (fun input => input = first +++ second).
Proof.
  intros text flags first second I. unfold grep_wrong in I. cbn [In] in I.
  repeat (destruct I as [E|I]; [injection E as <- <- <- <-|]); try destruct I.
  all: eexists; split; [vm_compute; reflexivity|]; cbv zeta; (split; [split; reflexivity|]); (split; [now apply filter_civ_reads|]);
    (split; [vm_compute; reflexivity|]); intros p I; (split; [eapply offered_first; [vm_compute; reflexivity|exact I]|]).
  all: match goal with |- parallel_wrong _ _ _ _ _ _ (fun input => input = ?a +++ ?b) =>
         apply (concat_wrong simple_system shipped_dir p _ 1 (fun input => input = a +++ b) (fun _ => "") a b) end;
    [now apply filter_civ_reads|now apply filter_civ_tight|exact I|exact simple_is_cat|reflexivity| |split; reflexivity|intros sd; vm_compute; discriminate].
  all: (left; reflexivity) || (right; exists "a"; reflexivity) || (right; exists "b"; reflexivity) || (right; exists "a
a
a"; reflexivity).
Qed.
Print Assumptions C51_grep_refuted.
(** cut is parallelized soundly exactly if there is none of these flags. *)
Theorem C51_cut_iff : forall text inv p c v dir,
  parse shipped_dir text = Ok inv -> cmd_name inv = "cut" -> offered shipped_dir inv p ->
  invocation_of inv c -> reads_one c v -> tight c ->
  (forall B o, is_record_wise o "cut" cut_names B -> is_cat B -> parallel_ok B dir p c v (fun n => n <> 0) (fun _ => True)) <->
  ~ uses_any inv ["-z"; "--help"; "--version"].
Proof.
  intros text inv p c v dir PA C OF IN R T. split.
  - intros H (n & I & U).
    assert (S : In p (stateless SpecPara.concat)) by (eapply stateless_of; eauto; rewrite C; now left).
    set (o := mkWise (fun _ _ x => [x]) (fun _ => "usage")).
    set (B := fun (seed : nat) (cmd : string) fl (ops : list word) inputs =>
      if String.eqb cmd "cat" then joined inputs else wise_output o fl ops (joined inputs)).
    assert (WB : is_record_wise o "cut" cut_names B).
    { intros seed fl ops input _. unfold B. cbn [String.eqb Ascii.eqb Bool.eqb joined fold_right]. now rewrite append_nil. }
    assert (CB : is_cat B) by (intros seed ops inputs _; reflexivity).
    set (s := fun _ : Z => "").
    assert (EA : ends_line "x
") by (right; exists "x"; reflexivity).
    pose proof (concat_complete B dir p c v _ R T S CB (H B o WB CB) s 0 0 0 "x
" "y" Logic.I EA) as X. cbv zeta in X.
    assert (CN : v_cmd c = "cut") by (destruct IN as (-> & _); exact C).
    assert (KN : known cut_names (map (wflag_of c s) (v_flags c))).
    { eapply parse_known; eauto; [rewrite C; left; vm_compute; reflexivity|vm_compute; reflexivity]. }
    rewrite CN, !WB in X by exact KN. unfold wise_output in X.
    destruct (given (map (wflag_of c s) (v_flags c)) ["--help"; "--version"]) eqn:G; [discriminate X|].
    destruct (given (map (wflag_of c s) (v_flags c)) ["-z"]) eqn:G'; [discriminate X|].
    assert (N : given (map (wflag_of c s) (v_flags c)) ["-z"; "--help"; "--version"] = true) by (apply (given_uses inv); auto; now exists n).
    rewrite given_iff in N. destruct N as (m & J & K). cbn in J.
    destruct J as [<-|J].
    + assert (Y : given (map (wflag_of c s) (v_flags c)) ["-z"] = true) by (apply given_iff; exists "-z"; split; [now left|exact K]). congruence.
    + assert (Y : given (map (wflag_of c s) (v_flags c)) ["--help"; "--version"] = true) by (apply given_iff; exists m; auto). congruence.
  - intros U B o WB CB. eapply cut_sound; eauto.
Qed.
Print Assumptions C51_cut_iff.
Definition cut_b : civ := filter_civ "cut" [FOptIO "-b" (PArg "1")] [].
Example C51_cut_case : exists inv, parse shipped_dir "cut -b 1" = Ok inv /\ invocation_of inv cut_b /\
  forall p, In p (stateless SpecPara.concat) ->
    parallel_ok simple_system shipped_dir p cut_b 1 (fun n => n <> 0) (fun _ => True).
Proof.
  assert (P : parse shipped_dir "cut -b 1" = Ok (mkInv "cut" [Option_ "-b" "1"] [])) by (vm_compute; reflexivity).
  eexists. split; [exact P|]. split; [split; reflexivity|]. intros p I.
  eapply (C51_cut_iff _ _ p cut_b 1 shipped_dir P eq_refl).
  - eapply offered_first; [vm_compute; reflexivity|exact I].
  - split; reflexivity.
  - now apply filter_civ_reads.
  - now apply filter_civ_tight.
  - intros (n & J & U). apply uses_in in U. cbn in J, U. intuition subst; discriminate.
  - exact simple_is_cut.
  - exact simple_is_cat.
Qed.

(** ** C58: tr *)
(** The exact condition for concatenating the results to be right: [tr_safe] in SpecSem.v *)
Theorem C58_tr_iff : forall text inv p c v B o dir,
  parse shipped_dir text = Ok inv -> cmd_name inv = "tr" -> In p (stateless SpecPara.concat) ->
  invocation_of inv c -> reads_one c v -> tight c -> is_tr o B -> is_cat B ->
  parallel_ok B dir p c v (fun n => n <> 0) (fun _ => True) <->
  forall s, tr_safe o (map (wflag_of c s) (v_flags c)) (map (word_of c s) (v_ops c)).
Proof. exact tr_parallel_iff. Qed.
Print Assumptions C58_tr_iff.
Theorem C58_tr_wrong : forall text inv p c v B o dir s,
  parse shipped_dir text = Ok inv -> cmd_name inv = "tr" -> In p (stateless SpecPara.concat) ->
  invocation_of inv c -> reads_one c v -> tight c -> is_tr o B -> is_cat B ->
  ~ tr_safe o (map (wflag_of c s) (v_flags c)) (map (word_of c s) (v_ops c)) ->
  parallel_wrong B dir p c v (fun n => n <> 0) (fun _ => True).
Proof. exact tr_wrong. Qed.
Print Assumptions C58_tr_wrong.
(** Without -s it is always right, even when newlines are deleted. *)
Theorem C58_without_squeeze : forall text inv p c v B o dir,
  parse shipped_dir text = Ok inv -> cmd_name inv = "tr" -> In p (stateless SpecPara.concat) ->
  invocation_of inv c -> reads_one c v -> tight c -> is_tr o B -> is_cat B ->
  ~ uses_any inv ["-s"; "--help"; "--version"] ->
  parallel_ok B dir p c v (fun n => n <> 0) (fun _ => True).
Proof.
  intros text inv p c v B o dir PA C I IN R T TB CB U. apply (C58_tr_iff text inv p c v B o dir); auto. intros s. split.
  - left. apply (given_unused inv); [exact IN|]. eapply unused_sub; [exact U|]. intros x; cbn; tauto.
  - left. intros a _. unfold tr_squeezes. rewrite (given_unused inv c s ["-s"]); [reflexivity|exact IN|].
    eapply unused_sub; [exact U|]. intros x; cbn; tauto.
Qed.
Print Assumptions C58_without_squeeze.
Example C58_without_squeeze_case : exists inv, parse shipped_dir "tr -d 'a\n'" = Ok inv /\
  parallel_ok simple_system shipped_dir (chunks SpecPara.concat) (filter_civ "tr" [FFlag "-d"] [PArg "a\n"]) 1 (fun n => n <> 0) (fun _ => True).
Proof.
  assert (P : parse shipped_dir "tr -d 'a\n'" = Ok (mkInv "tr" [Flag "-d"] ["a\n"])) by (vm_compute; reflexivity).
  eexists. split; [exact P|]. eapply (C58_without_squeeze _ _ _ _ 1 simple_system simple_tr shipped_dir P eq_refl).
  - now left.
  - split; reflexivity.
  - now apply filter_civ_reads.
  - now apply filter_civ_tight.
  - exact simple_is_tr.
  - exact simple_is_cat.
  - intros (n & J & U). apply uses_in in U. cbn in J, U. intuition subst; discriminate.
Qed.
(** Refuted: tr that squeezes newlines is offered the concatenation if the last set starts
    with the newline, and the result is wrong. *)
Theorem C58_squeeze_offered : forall inv sets set p, cmd_name inv = "tr" -> uses inv "-s" ->
  operand_list inv = sets ++ [set] -> sets <> [] -> starts_with "\n" set -> ~ recognised_newline set ->
  In p (stateless SpecPara.concat) -> offered shipped_dir inv p.
Proof.
  intros inv sets set p C S E NE SW NR I.
  assert (A : annotated shipped_dir inv (Some (stateless SpecPara.concat, false))).
  { apply an_tr_not_newline; auto.
    - rewrite E. now destruct sets.
    - intros [s0 E0 _ _|s0 E0 _ _|l0 s0 E0 NE0 R0]; rewrite E in E0.
      + destruct sets as [|? [|]]; [now apply NE|discriminate|discriminate].
      + destruct sets as [|? [|]]; [now apply NE|discriminate|discriminate].
      + apply app_inj_tail in E0 as (_ & ->). contradiction. }
  apply C25_exact in A. destruct (get_parallelizability_info shipped_dir inv) as [i|] eqn:G; [|discriminate]. injection A as A _.
  eapply offered_first; [exact G|]. now rewrite <- A.
Qed.
Print Assumptions C58_squeeze_offered.
Definition tr_words : civ := filter_civ "tr" [FFlag "-c"; FFlag "-s"] [PArg "A-Za-z"; PArg "\n"].
Theorem C58_squeeze_refuted : exists inv, parse shipped_dir "tr -cs A-Za-z '\n'" = Ok inv /\ invocation_of inv tr_words /\
  reads_one tr_words 1 /\ forall p, In p (stateless SpecPara.concat) -> offered shipped_dir inv p /\
  forall B o, is_tr o B -> is_cat B -> tr_set o "\n" newline = true -> tr_char o true false "A-Za-z" "\n" newline = newline ->
    parallel_wrong B shipped_dir p tr_words 1 (fun n => n <> 0) (fun _ => True).
Proof.
  assert (P : parse shipped_dir "tr -cs A-Za-z '\n'" = Ok (mkInv "tr" [Flag "-c"; Flag "-s"] ["A-Za-z"; "\n"])) by (vm_compute; reflexivity).
  eexists. split; [exact P|]. split; [split; reflexivity|]. split; [now apply filter_civ_reads|]. intros p I.
  split; [eapply offered_first; [vm_compute; reflexivity|exact I]|]. intros B o TB CB N1 N2.
  eapply (C58_tr_wrong _ _ _ _ _ _ _ _ (fun _ => "") P eq_refl I); eauto.
  - split; reflexivity.
  - now apply filter_civ_reads.
  - now apply filter_civ_tight.
  - intros (_ & [H|[(_ & H)|H]]).
    + specialize (H newline). unfold tr_squeezes, tr_image in H. cbn -[newline] in H. rewrite N2, N1 in H. discriminate H. reflexivity.
    + unfold tr_squeezes, tr_image in H. cbn -[newline] in H. rewrite N2, N1 in H. discriminate H.
    + discriminate H.
Qed.
Print Assumptions C58_squeeze_refuted.
Example C58_squeeze_case : tr_set simple_tr "\n" newline = true /\ tr_char simple_tr true false "A-Za-z" "\n" newline = newline /\
  is_tr simple_tr simple_system.
Proof. split; [vm_compute; reflexivity|]. split; [vm_compute; reflexivity|]. exact simple_is_tr. Qed.
