(** * C60, continued: xargs with -n, -L, -I, -0, -d and quotes *)
From Coq Require Import Lia.
Require Import Verif.PyBase Verif.JsonData Verif.Parser Verif.Access Verif.IOInfo Verif.IOVars
  Verif.Transformers Verif.ParaTypes Verif.ParaGen Verif.MapperAgg Verif.SpecLists Verif.SpecIO Verif.SpecVars Verif.SpecPara
  Verif.ParserFacts Verif.ParaProps Verif.ShippedData Verif.P_Para Verif.SpecSem Verif.SemFacts Verif.SemRun Verif.SemProps
  Verif.SemSystem Verif.SpecSem2 Verif.SemProps2 Verif.P_Sem2 Verif.SpecSem6 Verif.P_Sem6 Verif.SpecSem7 Verif.SemProps7.

Lemma concat_of inv p : cmd_name inv = "xargs" -> offered shipped_dir inv p -> p_aggregator p = SpecPara.concat.
Proof.
  intros C OF. assert (S : In p (stateless SpecPara.concat)) by (eapply stateless_of; eauto; rewrite C; cbn; auto).
  cbn in S. repeat (destruct S as [<-|S]; [reflexivity|]). destruct S.
Qed.
(** Sound on all inputs that [xargs_input] admits *)
Theorem C60_xargs_safe : forall inv p c v B o (Q : string -> Prop) dir,
  cmd_name inv = "xargs" -> offered shipped_dir inv p ->
  Forall (fun fo => In (fo_name fo) xargs_names) (flag_option_list inv) ->
  invocation_of inv c -> reads_one c v -> tight c ->
  (forall s, one_kind (map (wflag_of c s) (v_flags c)) /\ xargs_safe o (map (wflag_of c s) (v_flags c))) ->
  tail_closed Q -> (forall s x, Q x -> xargs_input o (map (wflag_of c s) (v_flags c)) x) ->
  is_xargs_full o B -> is_cat B ->
  parallel_ok B dir p c v (fun n => n <> 0) Q.
Proof.
  intros inv p c v B o Q dir C OF F IN R T KS QC QI XB CB.
  apply (C68_concat_iff shipped_dir inv); auto; [now apply (concat_of inv)|]. now apply (xargs_full_piecewise inv c v B o).
Qed.
Print Assumptions C60_xargs_safe.

(** Exactly the safe uses are sound whatever the command prints. *)
Theorem C60_xargs_full_iff : forall inv p c v o dir,
  cmd_name inv = "xargs" -> offered shipped_dir inv p ->
  Forall (fun fo => In (fo_name fo) xargs_names) (flag_option_list inv) ->
  invocation_of inv c -> reads_one c v -> tight c ->
  (forall s, one_kind (map (wflag_of c s) (v_flags c))) ->
  (forall B o', delimiter o' = delimiter o -> is_xargs_full o' B -> is_cat B -> parallel_ok B dir p c v (fun n => n <> 0) tidy_lines) <->
  forall s, xargs_safe o (map (wflag_of c s) (v_flags c)).
Proof.
  intros inv p c v o dir C OF F IN R T K. assert (A := concat_of inv p C OF). split.
  - intros H s. set (B := fun (seed : nat) (cmd : string) fl (ops : list word) inputs =>
      if String.eqb cmd "cat" then joined inputs else
      match read_items (loud o) fl (joined inputs) with Some l => xargs_prints (loud o) fl ops l | None => "" end).
    assert (XB : is_xargs_full (loud o) B).
    { intros seed fl ops input l _ _ E _. unfold B. cbn [String.eqb Ascii.eqb Bool.eqb joined fold_right]. now rewrite append_nil, E. }
    assert (CB : is_cat B) by (intros seed ops inputs _; reflexivity).
    assert (P : piecewise B c v tidy_lines) by (apply (C68_concat_iff shipped_dir inv p c v B tidy_lines dir); auto; [apply tidy_closed|now apply (H B (loud o))]).
    assert (CN : v_cmd c = "xargs") by (destruct IN as (-> & _); exact C). assert (KN := names_known inv c s _ IN F).
    apply (safe_needed o _ (map (word_of c s) (v_ops c)) (K s)). intros a b EA Q l m k RA RB RAB.
    assert (N : has_char nul (a +++ b) = false) by apply Q. pose proof N as N'. rewrite has_char_app in N'. apply orb_false_elim in N' as [NA NB].
    specialize (P s 0 0 0 a b EA Q). rewrite !(put_run B _ c v s _ R), CN in P.
    rewrite (XB 0 _ _ _ _ KN (K s) RAB N), (XB 0 _ _ _ _ KN (K s) RA NA), (XB 0 _ _ _ _ KN (K s) RB NB) in P. exact P.
  - intros S B o' D XB CB.
    assert (SE : forall fl, separator o' fl = separator o fl) by (intros fl; unfold separator; now rewrite D).
    apply (C60_xargs_safe inv p c v B o' tidy_lines dir); auto.
    + intros s. split; [apply K|]. unfold xargs_safe. rewrite SE. apply S.
    + apply tidy_closed.
    + intros s x (U & L). unfold xargs_input. destruct (separator o' _); [apply U|]. split; [exact U|]. intros _. exact L.
Qed.
Print Assumptions C60_xargs_full_iff.

(** ** Uses *)
Definition echo_world : xargs_world :=
  mkXargsWorld (fun _ => echo_words) (fun _ _ x => x +++ String newline "") (fun t => if String.eqb t "\n" then newline else match t with String a _ => a | "" => nul end) "".
Definition system7 : behaviour := fun seed cmd fl ops inputs =>
  if String.eqb cmd "cat" then joined inputs else
  match read_items echo_world fl (joined inputs) with Some l => xargs_prints echo_world fl ops l | None => "" end.
Lemma system7_xargs : is_xargs_full echo_world system7.
Proof. intros seed fl ops input l _ _ E _. unfold system7. cbn [String.eqb Ascii.eqb Bool.eqb joined fold_right]. now rewrite append_nil, E. Qed.
Lemma system7_cat : is_cat system7.
Proof. intros seed ops inputs _. reflexivity. Qed.
(** The texts of uses with their flags, and the inputs *)
Definition xargs_right : list (string * list flag_el * list string * (string -> Prop)) :=
  [("xargs -I {} echo {}", [FOptIO "-I" (PArg "{}")], ["echo"; "{}"], unquoted_lines);
   ("xargs -r -n 1 echo", [FFlag "-r"; FOptIO "-n" (PArg "1")], ["echo"], unquoted_lines);
   ("xargs -r -L 1 echo", [FFlag "-r"; FOptIO "-L" (PArg "1")], ["echo"], tidy_lines);
   ("xargs -d '\n' -r -n 1 echo", [FOptIO "--delimiter" (PArg "\n"); FFlag "-r"; FOptIO "-n" (PArg "1")], ["echo"], no_null);
   ("xargs -d '\n' -I {} echo {}", [FOptIO "--delimiter" (PArg "\n"); FOptIO "-I" (PArg "{}")], ["echo"; "{}"], no_null)].
Lemma plain_one_kind fl : 
  forallb (fun f => match f with WFlag n => negb (mem n ["-n"; "-L"; "-I"; "--delimiter"]) | WOption n (WText _) => negb (String.eqb n "--null") | _ => false end) fl = true ->
  (Nat.leb (length (filter (fun n => given fl [n]) ["-n"; "-L"; "-I"])) 1 = true) -> one_kind fl.
Proof.
  intros A L. rewrite forallb_forall in A. split; [|split].
  - intros f n I <- J. specialize (A f I). destruct f as [m|m [|t| | |]]; try discriminate A; cbn [wflag_name] in *; [|eauto].
    apply negb_true_iff in A. apply mem_In in J. congruence.
  - intros n m I J N G. destruct (given fl [m]) eqn:G'; [exfalso|reflexivity]. cbn [filter] in L. cbn [In] in I, J.
    destruct I as [<-|[<-|[<-|[]]]], J as [<-|[<-|[<-|[]]]]; try (now apply N); rewrite ?G, ?G' in L;
      repeat match type of L with context [if ?b then _ else _] => destruct b end; discriminate L.
  - intros f I E. specialize (A f I). destruct f as [m|m [|t| | |]]; try discriminate A; cbn [wflag_name] in E; subst m; [reflexivity|discriminate A].
Qed.
Lemma unquoted_closed : tail_closed unquoted_lines.
Proof. intros a b EA U. destruct (input_app echo_world [] a b EA) as (_ & (U' & _)); [split; [exact U|discriminate]|exact U']. Qed.
Lemma no_null_closed : tail_closed no_null.
Proof. intros a b _ N. unfold no_null in *. rewrite has_char_app in N. now apply orb_false_elim in N. Qed.
Theorem C60_xargs_uses : forall text flags ops Q, In (text, flags, ops, Q) xargs_right ->
  exists inv, parse shipped_dir text = Ok inv /\
  let c := filter_civ "xargs" flags (map PArg ops) in
  invocation_of inv c /\ reads_one c 1 /\
  forall B o p dir, delimiter o "\n" = newline -> is_xargs_full o B -> is_cat B -> In p (stateless SpecPara.concat) ->
    offered shipped_dir inv p /\ parallel_ok B dir p c 1 (fun n => n <> 0) Q.
Proof.
  intros text flags ops Q I. unfold xargs_right in I. cbn [In] in I.
  repeat (destruct I as [E|I]; [injection E as <- <- <- <-|]); try destruct I.
  all: eexists; split; [vm_compute; reflexivity|]; cbv zeta; (split; [split; reflexivity|]); (split; [now apply filter_civ_reads|]);
    intros B o p dir D XB CB I.
  all: match goal with |- offered _ ?inv _ /\ parallel_ok _ _ _ ?c _ _ _ =>
         split; [now apply xargs_offered|]; apply (C60_xargs_safe inv p c 1 B o) end;
    [|now apply xargs_offered| | |now apply filter_civ_reads|now apply filter_civ_tight| | | |exact XB|exact CB];
    [reflexivity|apply Forall_forall; cbn; intuition (subst; cbn; auto 12)|split; reflexivity| | |].
  all: try apply unquoted_closed; try apply tidy_closed; try apply no_null_closed.
  all: try (intros s; split; [apply plain_one_kind; reflexivity|]; split; [reflexivity|right]; split;
    [first [left; reflexivity|right; cbn; rewrite D; reflexivity]|first [left; reflexivity|right; split; [reflexivity|first [left; reflexivity|right; reflexivity]]]]).
  all: intros s x H; unfold xargs_input; cbn; rewrite ?D; 
    first [exact H|split; [exact H|discriminate]|destruct H as (H & H'); split; [exact H|intros _; exact H']].
Qed.
Print Assumptions C60_xargs_uses.
(** The inputs are the ones one expects, and others are cut wrongly. *)
Example C60_xargs_inputs_case : unquoted_lines "'a b' c
d\ e
" /\ tidy_lines "a b
c
" /\ system7 0 "xargs" [WFlag "-r"; WOption "-n" (WText "1")] [] ["'a b' c
d\ e
"] = "a b
c
d e
".
Proof.
  split; [split; reflexivity|]. split; [|vm_compute; reflexivity]. split; [split; reflexivity|]. vm_compute lines. repeat apply Forall_cons; [| |apply Forall_nil].
  - intros x e l E. vm_compute in E. destruct l as [|? [|? l]]; [discriminate E|now injection E|injection E as _ _ E; now destruct l].
  - intros x e l E. vm_compute in E. destruct l as [|? l]; [now injection E|injection E as _ E; now destruct l].
Qed.
(** Refuted: -0, a bare -L, an escaped newline, and with -L 1 a blank at the end of a line *)
Definition xargs_wrong7 : list (string * list flag_el * string * string) :=
  [("xargs --null -r -n 1 echo", [FFlag "--null"; FFlag "-r"; FOptIO "-n" (PArg "1")], "a
", "b
"); ("xargs -r -L 2 echo", [FFlag "-r"; FOptIO "-L" (PArg "2")], "a
", "b
"); ("xargs -L 1 echo", [FOptIO "-L" (PArg "1")], "a
", ""); ("xargs -r -n 1 echo", [FFlag "-r"; FOptIO "-n" (PArg "1")], "a\
", "b
"); ("xargs -r -L 1 echo", [FFlag "-r"; FOptIO "-L" (PArg "1")], "a 
", "b
")].
Theorem C60_xargs_inputs_refuted : forall text flags first second, In (text, flags, first, second) xargs_wrong7 ->
  exists inv, parse shipped_dir text = Ok inv /\
  let c := filter_civ "xargs" flags [PArg "echo"] in
  invocation_of inv c /\ reads_one c 1 /\ has_char nul (first +++ second) = false /\
  is_xargs_full echo_world system7 /\ is_cat system7 /\ (forall s, one_kind (map (wflag_of c s) (v_flags c))) /\
  (exists l, read_items echo_world (map (wflag_of c (fun _ => "")) (v_flags c)) (first +++ second) = Some l) /\
  forall p, In p (stateless SpecPara.concat) ->
    offered shipped_dir inv p /\
    parallel_wrong system7 shipped_dir p c 1 (fun n => n <> 0) (fun input => input = first +++ second).
Proof.
  intros text flags first second I. unfold xargs_wrong7 in I. cbn [In] in I.
  repeat (destruct I as [E|I]; [injection E as <- <- <- <-|]); try destruct I.
  all: eexists; split; [vm_compute; reflexivity|]; cbv zeta;
    (split; [split; reflexivity|]); (split; [now apply filter_civ_reads|]); (split; [reflexivity|]);
    (split; [exact system7_xargs|]); (split; [exact system7_cat|]); (split; [intros s; apply plain_one_kind; reflexivity|]);
    (split; [eexists; vm_compute; reflexivity|]); intros p I; (split; [now apply xargs_offered|]).
  all: match goal with |- parallel_wrong _ _ _ _ _ _ (fun input => input = ?a +++ ?b) =>
         apply (concat_wrong system7 shipped_dir p _ 1 (fun input => input = a +++ b) (fun _ => "") a b) end;
    [now apply filter_civ_reads|now apply filter_civ_tight|exact I|exact system7_cat|reflexivity| |split; reflexivity|intros sd; vm_compute; discriminate].
  all: right; first [exists "a"; reflexivity|exists "a\"; reflexivity|exists "a "; reflexivity].
Qed.
Print Assumptions C60_xargs_inputs_refuted.
