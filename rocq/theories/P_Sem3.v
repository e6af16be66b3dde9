(** * Sound combination of adjacent lines (C61, C62)
    [adjacent_ok] and [adjacent_wrong] are in SpecSem3.v. *)
From Coq Require Import Lia.
Require Import Verif.PyBase Verif.JsonData Verif.Parser Verif.Access Verif.IOInfo Verif.IOVars
  Verif.Transformers Verif.ParaTypes Verif.ParaGen Verif.MapperAgg Verif.SpecLists Verif.SpecIO Verif.SpecVars Verif.SpecPara
  Verif.ParserFacts Verif.ParaProps Verif.ShippedData Verif.P_Para Verif.SpecSem Verif.SemFacts Verif.SemRun Verif.SemProps Verif.SemSystem
  Verif.P_Sem Verif.SpecSem3 Verif.SemProps3.

(** Every plan has at most one result. *)
Theorem C61_one_result : forall B p c s f t r r',
  adj_evaluates B p c s f t r -> adj_evaluates B p c s f t r' -> r = r'.
Proof. intros B p c s f t. apply adj_fun_eq. Qed.
Print Assumptions C61_one_result.

(** ** C61: uniq *)
(** Running uniq on the last line of one result and the first line of the next is sound for
    every way to compare lines exactly if there is none of these options. *)
Theorem C61_uniq_iff : forall text inv p c v,
  parse shipped_dir text = Ok inv -> cmd_name inv = "uniq" -> offered shipped_dir inv p ->
  invocation_of inv c -> reads_one c v -> tight c ->
  ~ uses inv "-" -> ~ uses inv "-c" -> ~ (uses inv "-u" /\ uses inv "--group") ->
  (forall B o, is_uniq o B -> adjacent_ok B p c v) <->
  ~ uses_any inv ["-u"; "-z"; "--help"; "--version"] /\
  (forall s m, group_method (map (wflag_of c s) (v_flags c)) = Some m -> ~ In m ["prepend"; "append"; "both"]).
Proof. exact uniq_exact. Qed.
Print Assumptions C61_uniq_iff.
Definition uniq_i : civ := filter_civ "uniq" [FFlag "-i"; FOptIO "--group" (PArg "separate")] [].
Definition lower (a : ascii) : ascii := if Nat.leb 65 (nat_of_ascii a) && Nat.leb (nat_of_ascii a) 90 then ascii_of_nat (nat_of_ascii a + 32) else a.
Definition case_uniq : uniq_oracle := mkUniq
  (fun fl x y => if given fl ["-i"] then String.eqb (map_chars lower x) (map_chars lower y) else String.eqb x y) "usage".
Lemma case_uniq_equivalence fl : equivalence (uniq_same case_uniq fl).
Proof.
  cbn. destruct (given fl ["-i"]); [|exact eqb_equivalence]. split; [|split].
  - intros x. apply String.eqb_refl.
  - intros x y. apply String.eqb_sym.
  - intros x y z H1 H2. apply String.eqb_eq in H1 as ->. exact H2.
Qed.
(** uniq -i --group separate *)
Example C61_uniq_case : exists inv, parse shipped_dir "uniq -i --group separate" = Ok inv /\ invocation_of inv uniq_i /\
  forall p, In p (stateless adj_seq) -> offered shipped_dir inv p /\ adjacent_ok (uniq_system case_uniq) p uniq_i 1.
Proof.
  assert (P : parse shipped_dir "uniq -i --group separate" = Ok (mkInv "uniq" [Flag "-i"; Option_ "--group" "separate"] [])) by (vm_compute; reflexivity).
  eexists. split; [exact P|]. split; [split; reflexivity|]. intros p I.
  assert (O : offered shipped_dir (mkInv "uniq" [Flag "-i"; Option_ "--group" "separate"] []) p) by (eapply offered_first; [vm_compute; reflexivity|exact I]).
  split; [exact O|].
  eapply (C61_uniq_iff _ _ p uniq_i 1 P eq_refl O).
  - split; reflexivity.
  - now apply filter_civ_reads.
  - now apply filter_civ_tight.
  - intros U. apply uses_in in U. cbn in U. intuition discriminate.
  - intros U. apply uses_in in U. cbn in U. intuition discriminate.
  - intros (U & _). apply uses_in in U. cbn in U. intuition discriminate.
  - split.
    + intros (n & J & U). apply uses_in in U. cbn in J, U. intuition subst; discriminate.
    + intros s m G. vm_compute in G. injection G as <-. cbn. intuition discriminate.
  - apply uniq_system_ok, case_uniq_equivalence.
Qed.
(** The result of a plan with three parts: the second part ends in the middle of a block. *)
Example C61_uniq_computed :
  uniq_output case_uniq [WFlag "-i"] "a
A
b
B
c" = "a
b
c
" /\ combine_adjacent (uniq_output case_uniq [WFlag "-i"]) (map (uniq_output case_uniq [WFlag "-i"]) ["a
A
b
"; "B
"; "c"]) = "a
b
c
".
Proof. split; vm_compute; reflexivity. Qed.
(** uniq -u is wrong however lines are compared. *)
Theorem C61_unique_wrong : forall text inv p c v B o,
  parse shipped_dir text = Ok inv -> cmd_name inv = "uniq" -> offered shipped_dir inv p ->
  invocation_of inv c -> reads_one c v -> tight c -> uses inv "-u" ->
  ~ uses_any inv ["-"; "-c"; "--group"; "-z"; "--help"; "--version"] -> is_uniq o B -> adjacent_wrong B p c v.
Proof.
  intros text inv p c v B o PA C OF IN R T U N UB.
  assert (UC : ~ uses inv "-c") by (intros X; apply N; exists "-c"; cbn; tauto).
  pose proof (uniq_stateless inv p C OF UC) as I. pose proof (uniq_offered_plain inv p C OF) as UD.
  apply (adjacent_differs B p c v (fun _ => "") (String newline (String newline "")) (String newline "")
    (uniq_output o (map (wflag_of c (fun _ => "")) (v_flags c))) R T I).
  - right. exists (String newline ""). reflexivity.
  - eapply uniq_run; eauto; [intros X|intros (_ & X)]; apply N; eexists; (split; [|exact X]); cbn; tauto.
  - set (fl := map (wflag_of c (fun _ => "")) (v_flags c)).
    assert (G : forall l, incl l ["-"; "-c"; "--group"; "-z"; "--help"; "--version"] -> given fl l = false).
    { intros l J. apply (given_unused inv); [exact IN|]. exact (unused_sub inv _ l N J). }
    assert (Gu : given fl ["-u"] = true) by (apply (given_uses inv); [exact IN|]; exists "-u"; cbn; auto).
    assert (E : uniq_same o fl "" "" = true) by (apply (proj1 UB)).
    unfold uniq_output. rewrite (G ["--help"; "--version"]), (G ["-z"]), Gu by (intros y; cbn; tauto).
    cbn [String.append records newline Ascii.eqb Bool.eqb blocks]. cbv [newline]. cbn. rewrite E. cbn. rewrite E. cbn. discriminate.
Qed.
Print Assumptions C61_unique_wrong.
(** Refuted: each of these is offered the combination of adjacent lines, and a wrong result is possible. *)
Definition uniq_wrong : list (string * list flag_el * string * string) :=
  [("uniq -u", [FFlag "-u"], "a
a
", "a
"); ("uniq --group prepend", [FOptIO "--group" (PArg "prepend")], "a
", "a
"); ("uniq --group both", [FOptIO "--group" (PArg "both")], "a
", "a
"); ("uniq --unique --ignore-case", [FFlag "-u"; FFlag "-i"], "a
A
", "a
"); ("uniq -z", [FFlag "-z"], "a
", "a
")].
Theorem C61_uniq_refuted : forall text flags first second, In (text, flags, first, second) uniq_wrong ->
  exists inv, parse shipped_dir text = Ok inv /\
  let c := filter_civ "uniq" flags [] in
  invocation_of inv c /\ reads_one c 1 /\
  forall p, In p (stateless adj_seq) ->
    offered shipped_dir inv p /\ adjacent_wrong (uniq_system case_uniq) p c 1.
Proof.
  intros text flags first second I. unfold uniq_wrong in I. cbn [In] in I.
  repeat (destruct I as [E|I]; [injection E as <- <- <- <-|]); try destruct I.
  all: eexists; split; [vm_compute; reflexivity|]; cbv zeta;
    (split; [split; reflexivity|]); (split; [now apply filter_civ_reads|]);
    intros p I; (split; [eapply offered_first; [vm_compute; reflexivity|exact I]|]).
  all: match goal with |- adjacent_wrong _ _ (filter_civ _ ?fl _) _ =>
         match fl with
         | [FFlag "-u"] => apply (adjacent_differs _ _ _ _ (fun _ => "") "a
a
" "a
" (uniq_output case_uniq (map (wflag_of (filter_civ "uniq" fl []) (fun _ => "")) fl)))
         | [FFlag "-u"; FFlag "-i"] => apply (adjacent_differs _ _ _ _ (fun _ => "") "a
A
" "a
" (uniq_output case_uniq (map (wflag_of (filter_civ "uniq" fl []) (fun _ => "")) fl)))
         | _ => apply (adjacent_differs _ _ _ _ (fun _ => "") "a
" "a
" (uniq_output case_uniq (map (wflag_of (filter_civ "uniq" fl []) (fun _ => "")) fl)))
         end end;
    [now apply filter_civ_reads|now apply filter_civ_tight|exact I| |intros sd x; unfold uniq_system; cbn [joined fold_right v_flags filter_civ]; now rewrite append_nil|vm_compute; discriminate].
  all: (right; exists "a"; reflexivity) || (right; exists "a
a"; reflexivity) || (right; exists "a
A"; reflexivity).
Qed.
Print Assumptions C61_uniq_refuted.
(** The word --all-repeated at the end of a command line is an operand for the parser (it has no
    argument), so that it does not prevent the annotation. *)
Theorem C61_all_repeated_offered : exists inv, parse shipped_dir "uniq --all-repeated" = Ok inv /\
  forall p, In p (stateless adj_seq) -> offered shipped_dir inv p.
Proof. eexists. split; [vm_compute; reflexivity|]. intros p I. eapply offered_first; [vm_compute; reflexivity|exact I]. Qed.
Print Assumptions C61_all_repeated_offered.

(** ** C62: tr -d *)
(** If newlines are deleted, the merged result is the right text if at most one part leaves
    something, and has a newline too much otherwise. *)
Theorem C62_merge_exact : forall text inv p c v B o s,
  parse shipped_dir text = Ok inv -> cmd_name inv = "tr" -> In p (stateless adj_merge) -> invocation_of inv c -> reads_one c v ->
  uses inv "-d" -> ~ uses_any inv ["-s"; "--help"; "--version"] -> is_tr o B ->
  tr_deletes o (map (wflag_of c s) (v_flags c)) (map (word_of c s) (v_ops c)) newline = true ->
  forall t r seed, fresh_plan c t -> distributes (p_splitter p) (s v) (map s (parts t)) ->
    adj_evaluates B p c s (adj_fun (agg_kind_of (p_aggregator p)) B c v s) t r ->
    exists results, Forall2 (fun x y => forall sd, B sd (v_cmd c) (map (wflag_of c s) (v_flags c)) (map (word_of c s) (v_ops c)) [s x] = y) (parts t) results /\
      run B seed c s = joined results /\ r = merged_line results.
Proof. exact tr_merge. Qed.
Print Assumptions C62_merge_exact.
(** Wrong whenever some character is kept *)
Theorem C62_merge_wrong : forall text inv p c v B o s x,
  parse shipped_dir text = Ok inv -> cmd_name inv = "tr" -> In p (stateless adj_merge) -> invocation_of inv c -> reads_one c v -> tight c ->
  uses inv "-d" -> ~ uses_any inv ["-s"; "--help"; "--version"] -> is_tr o B ->
  tr_deletes o (map (wflag_of c s) (v_flags c)) (map (word_of c s) (v_ops c)) newline = true ->
  tr_deletes o (map (wflag_of c s) (v_flags c)) (map (word_of c s) (v_ops c)) x = false ->
  adjacent_wrong B p c v.
Proof.
  intros text inv p c v B o s x PA C I IN R T UD US TB DN DX.
  assert (CN : v_cmd c = "tr") by (destruct IN as (-> & _); exact C).
  assert (KN : forall s, known tr_names (map (wflag_of c s) (v_flags c))).
  { intros s0. eapply parse_known; eauto; [rewrite C; left; vm_compute; reflexivity|vm_compute; reflexivity]. }
  set (a := String x (String newline "")). set (b := String x "").
  assert (EA : ends_line a) by (right; now exists (String x "")).
  set (f := tr_output o (map (wflag_of c s) (v_flags c)) (map (word_of c s) (v_ops c))).
  destruct (two_pieces B p c v adj_merge f s a b R T I EA) as (s' & t & FR & DI & Si & (W1 & W2) & EV).
  { intros sd. rewrite CN. now apply TB. }
  { intros sd. rewrite CN. now apply TB. }
  exists s', t. eexists. split; [exact FR|]. split; [exact DI|]. split; [exact EV|]. intros seed E.
  assert (DN' : tr_deletes o (map (wflag_of c s') (v_flags c)) (map (word_of c s') (v_ops c)) newline = true) by now rewrite W1, W2.
  destruct (C62_merge_exact text inv p c v B o s' PA C I IN R UD US TB DN' t _ seed FR DI EV) as (results & _ & X & Y).
  rewrite Y, X in E. unfold merged_line in E.
  assert (Z : joined results = String x (String x "")).
  { rewrite <- X, (run_original B seed c v s' R), W1, W2, Si, CN, TB by apply KN.
    assert (G : forall l n, In n l -> ~ uses inv n -> given (map (wflag_of c s) (v_flags c)) [n] = false).
    { intros l n _ U. apply (given_unused inv); [exact IN|]. intros (m & [<-|[]] & V). contradiction. }
    rewrite tr_deleting.
    - unfold a, b. cbn [String.append keep_chars]. rewrite DN, DX. reflexivity.
    - apply (given_unused inv); [exact IN|]. intros (m & [<-|[]] & V). apply US. exists "-s". cbn. auto.
    - apply (given_unused inv); [exact IN|]. intros (m & J & V). apply US. exists m. cbn in *. tauto.
    - apply (given_uses inv); [exact IN|]. exists "-d". cbn. auto. }
  assert (D : adjacent (adj_fun (agg_kind_of (p_aggregator p)) B c v s' 0) (f a) (f b) = String x (String x (String newline ""))).
  { assert (K : agg_kind_of (p_aggregator p) = ADJ_LINES_MERGE) by (destruct I as [<-|[<-|[]]]; reflexivity). rewrite K. cbn [adj_fun].
    assert (XN : x <> newline) by (intros ->; congruence).
    assert (Fa : forall y, f y = keep_chars (fun a => negb (tr_deletes o (map (wflag_of c s) (v_flags c)) (map (word_of c s) (v_ops c)) a)) y).
    { intros y. apply tr_deleting.
      - apply (given_unused inv); [exact IN|]. intros (m & [<-|[]] & V). apply US. exists "-s". cbn. auto.
      - apply (given_unused inv); [exact IN|]. intros (m & J & V). apply US. exists m. cbn in *. tauto.
      - apply (given_uses inv); [exact IN|]. exists "-d". cbn. auto. }
    rewrite !Fa. unfold a, b. cbn [keep_chars]. rewrite DN, DX. cbn [negb].
    assert (CX : has_char newline (String x "") = false) by (cbn [has_char]; destruct (Ascii.eqb_spec newline x); [congruence|reflexivity]).
    unfold adjacent. rewrite (line_one (String x "") CX) by discriminate. cbn [rev app].
    unfold merge_fun, unlines, lines. rewrite records_terminated by (repeat constructor; exact CX). reflexivity. }
  rewrite D in Y. rewrite Y in *. unfold merged_line in *. destruct (filter not_empty results) as [|? [|? ?]]; rewrite Z in *; discriminate.
Qed.
Print Assumptions C62_merge_wrong.
Definition tr_delete : civ := filter_civ "tr" [FFlag "-d"] [PArg "a\n"].
Example C62_merge_case : exists inv, parse shipped_dir "tr -d 'a\n'" = Ok inv /\ invocation_of inv tr_delete /\
  forall p, In p (stateless adj_merge) -> offered shipped_dir inv p /\ adjacent_wrong simple_system p tr_delete 1.
Proof.
  assert (P : parse shipped_dir "tr -d 'a\n'" = Ok (mkInv "tr" [Flag "-d"] ["a\n"])) by (vm_compute; reflexivity).
  eexists. split; [exact P|]. split; [split; reflexivity|]. intros p I. split; [eapply offered_first; [vm_compute; reflexivity|exact I]|].
  eapply (C62_merge_wrong _ _ p tr_delete 1 simple_system simple_tr (fun _ => "") "b" P eq_refl I).
  - split; reflexivity.
  - now apply filter_civ_reads.
  - now apply filter_civ_tight.
  - apply uses_in. now left.
  - intros (n & J & U). apply uses_in in U. cbn in J, U. intuition subst; discriminate.
  - exact simple_is_tr.
  - reflexivity.
  - reflexivity.
Qed.
