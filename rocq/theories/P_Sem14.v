(** * Sound parallelization of sed with any script that ends (C59)
    What sed does is in SpecSem8.v, plans are in SpecSem.v. *)
From Coq Require Import Lia.
Require Import Verif.PyBase Verif.JsonData Verif.Parser Verif.Access Verif.IOInfo Verif.IOVars
  Verif.Transformers Verif.ParaTypes Verif.ParaGen Verif.MapperAgg Verif.SpecLists Verif.SpecIO Verif.SpecVars Verif.SpecPara
  Verif.ParserFacts Verif.ParaProps Verif.ShippedData Verif.P_Para Verif.SpecSem Verif.SemFacts Verif.SemRun Verif.SemProps Verif.SemSystem
  Verif.P_Sem Verif.SpecSem2 Verif.SemProps2 Verif.P_Sem2 Verif.SemProps7 Verif.SpecSem8 Verif.SemProps8 Verif.P_Sem8 Verif.SpecSem4 Verif.SpecSem6 Verif.P_Sem6 Verif.P_Sem12.

(** The script prints the same for a text as for its first line and for the rest, one after the other. *)
Definition first_line_apart (o : sed_meaning) (fl : list wflag) (sc : sed_script) : Prop :=
  forall x rest out1 out2, has_char newline x = false ->
    sed_prints o fl sc (x +++ String newline "") out1 -> sed_prints o fl sc rest out2 ->
    sed_prints o fl sc (x +++ String newline rest) (out1 +++ out2).

Section ANY.
Variables (text : string) (inv : invocation) (p : parallelizer) (c : civ) (v : Z) (B : behaviour) (reads : string -> option sed_script)
  (o : sed_meaning) (dir : data_dir) (script_text : string) (ops : list pyval) (sc : sed_script).
Hypotheses (PA : parse shipped_dir text = Ok inv) (C : cmd_name inv = "sed") (OF : offered shipped_dir inv p)
  (IN : invocation_of inv c) (R : reads_one c v) (T : tight c) (OPS : v_ops c = PArg script_text :: ops) (RS : reads script_text = Some sc)
  (U : ~ uses_any inv sed_others) (SB : is_sed_full reads o B) (CB : is_cat B).
Let flags (s : store) : list wflag := map (wflag_of c s) (v_flags c).
Hypothesis ENDS : forall s x, sed_ends o (flags s) sc x.

Lemma put_prints s sd x w : sed_prints o (flags s) sc x w -> run B sd c (put v x s) = w.
Proof.
  intros P. rewrite (put_run B sd c v s x R). assert (CN : v_cmd c = "sed") by (destruct IN as (-> & _); exact C).
  assert (GU : given (flags s) sed_others = false) by (apply (given_unused inv); [exact IN|exact U]).
  rewrite CN, OPS. cbn [map word_of]. eapply SB; eauto.
  eapply parse_known; eauto; [rewrite C; left; vm_compute; reflexivity|vm_compute; reflexivity].
Qed.
Lemma is_stateless : In p (stateless SpecPara.concat).
Proof. eapply stateless_of; eauto. rewrite C. cbn; auto. Qed.
Lemma concatenates : p_aggregator p = SpecPara.concat.
Proof. destruct is_stateless as [<-|[<-|[]]]; reflexivity. Qed.
Lemma any_iff : parallel_ok B dir p c v (fun n => n <> 0) (fun _ => True) <-> forall s, first_line_apart o (flags s) sc.
Proof.
  rewrite (C68_concat_iff _ _ _ _ _ B (fun _ => True) dir OF concatenates R T CB) by (intros ? ? _ _; exact I). split.
  - intros PW s x rest out1 out2 CL P1 P2. destruct (ENDS s (x +++ String newline rest)) as (w & P).
    assert (E : w = out1 +++ out2); [|now rewrite <- E].
    assert (S : x +++ String newline rest = (x +++ String newline "") +++ rest) by now rewrite append_assoc.
    specialize (PW s 0 0 0 (x +++ String newline "") rest ltac:(right; now exists x) Logic.I). rewrite <- S in PW.
    now rewrite (put_prints _ _ _ _ P), (put_prints _ _ _ _ P1), (put_prints _ _ _ _ P2) in PW.
  - intros FA s seed seed1 seed2 a b EA _.
    assert (G : forall l b w1 w2, Forall (fun x => has_char newline x = false) l -> sed_prints o (flags s) sc (unlines l) w1 -> sed_prints o (flags s) sc b w2 ->
      sed_prints o (flags s) sc (unlines l +++ b) (w1 +++ w2)).
    { clear - FA ENDS. induction l as [|x l IH]; intros b w1 w2 F P1 P2.
      - assert (w1 = "") as ->; [|exact P2]. cbn in P1. exact P1.
      - inversion F as [|? ? CL F']; subst. destruct (ENDS s (unlines l)) as (w3 & P3). destruct (ENDS s (x +++ String newline "")) as (w4 & P4).
        assert (E : forall y, unlines (x :: l) +++ y = x +++ String newline (unlines l +++ y)).
        { intros y. unfold unlines, terminated. cbn [map joined fold_right]. now rewrite !append_assoc. }
        assert (E0 : unlines (x :: l) = x +++ String newline (unlines l)) by (rewrite <- (append_nil (unlines (x :: l))), E, append_nil; reflexivity).
        pose proof (FA s x (unlines l) w4 w3 CL P4 P3) as P5. rewrite <- E0 in P5. pose proof (sed_prints_fun _ _ _ _ _ _ P1 P5) as ->.
        rewrite E, append_assoc. apply FA; auto. }
    destruct (ENDS s a) as (w1 & P1). destruct (ENDS s b) as (w2 & P2).
    assert (P : sed_prints o (flags s) sc (a +++ b) (w1 +++ w2)).
    { rewrite <- (unlines_lines a EA) in P1 |- *. apply G; auto. apply records_clean. }
    now rewrite (put_prints _ _ _ _ P), (put_prints _ _ _ _ P1), (put_prints _ _ _ _ P2).
Qed.
End ANY.

(** Every script of the language, if it ends on all inputs: the concatenation is right for all
    inputs and all cuts iff it is right whenever the first line is cut off. *)
Theorem C59_script_iff : forall text inv p c v B reads o dir script_text ops sc,
  parse shipped_dir text = Ok inv -> cmd_name inv = "sed" -> offered shipped_dir inv p ->
  invocation_of inv c -> reads_one c v -> tight c -> v_ops c = PArg script_text :: ops -> reads script_text = Some sc ->
  ~ uses_any inv sed_others -> is_sed_full reads o B -> is_cat B ->
  (forall s x, sed_ends o (map (wflag_of c s) (v_flags c)) sc x) ->
  parallel_ok B dir p c v (fun n => n <> 0) (fun _ => True) <->
  forall s, first_line_apart o (map (wflag_of c s) (v_flags c)) sc.
Proof. intros. eapply any_iff; eauto. Qed.
Print Assumptions C59_script_iff.
(** Otherwise some plan prints what sed does not print. *)
Theorem C59_script_wrong : forall text inv p c v B reads o dir script_text ops sc s x rest out1 out2 out,
  parse shipped_dir text = Ok inv -> cmd_name inv = "sed" -> offered shipped_dir inv p ->
  invocation_of inv c -> reads_one c v -> tight c -> v_ops c = PArg script_text :: ops -> reads script_text = Some sc ->
  ~ uses_any inv sed_others -> is_sed_full reads o B -> is_cat B ->
  let fl := map (wflag_of c s) (v_flags c) in
  sed_prints o fl sc (x +++ String newline "") out1 -> sed_prints o fl sc rest out2 -> sed_prints o fl sc (x +++ String newline rest) out ->
  out <> out1 +++ out2 ->
  parallel_wrong B dir p c v (fun n => n <> 0) (fun input => input = x +++ String newline rest).
Proof.
  intros text inv p c v B reads o dir script_text ops sc s x rest out1 out2 out PA C OF IN R T OPS RS U SB CB fl P1 P2 P N.
  assert (PP : forall sd y w, sed_prints o fl sc y w -> run B sd c (put v y s) = w) by (intros; eapply put_prints; eauto).
  assert (E : (x +++ String newline "") +++ rest = x +++ String newline rest) by now rewrite append_assoc.
  apply (C68_concat_wrong shipped_dir inv p c v B _ dir s (x +++ String newline "") rest); auto.
  - eapply concatenates; eauto.
  - right. now exists x.
  - intros. now rewrite !(PP _ _ _ P1).
  - intros. now rewrite !(PP _ _ _ P2).
  - intros. now rewrite E, (PP _ _ _ P), (PP _ _ _ P1), (PP _ _ _ P2).
Qed.
Print Assumptions C59_script_wrong.

(** ** Examples
    Lines are exchanged with the hold space and back again: not [by_itself], but right. *)
Definition twice : sed_script := [here AExchange; here AExchange].
Fixpoint untouched (fl : list wflag) (ended : bool) (l : list string) : list item :=
  match l with
  | [] => []
  | x :: r => (if given fl ["-n"] then [] else [(x, match r with [] => ended | _ => true end)]) ++ untouched fl ended r
  end.
Lemma twice_runs o fl ended : forall l st, s_rest st = l -> s_hold st = ("", true) -> s_queue st = [] -> s_open st = [] ->
  match starts ended st with
  | None => l = []
  | Some st1 => exists fuel, sed_run o fl twice ended fuel st1 = Some (s_out st ++ untouched fl ended l)
  end.
Proof.
  induction l as [|x r IH]; intros st R H Q O; unfold starts, takes; rewrite R; [reflexivity|].
  set (e := match r with [] => ended | _ => true end).
  set (st2 := mkSed 2 x e ("", true) false [] (S (s_number st)) r [] ((if given fl ["-n"] then s_out st else s_out st ++ [(x, e)]) ++ [])).
  specialize (IH st2 eq_refl eq_refl eq_refl eq_refl).
  set (n := S (s_number st)) in *. set (out := s_out st) in *.
  assert (S0 : sed_step o fl twice ended (mkSed 0 x e ("", true) false [] n r [] out) = Inside (mkSed 1 "" true (x, e) false [] n r [] out)) by reflexivity.
  assert (S1 : sed_step o fl twice ended (mkSed 1 "" true (x, e) false [] n r [] out) = Inside (mkSed 2 x e ("", true) false [] n r [] out)) by reflexivity.
  assert (S2 : sed_step o fl twice ended (mkSed 2 x e ("", true) false [] n r [] out) = NextLine st2).
  { unfold sed_step, shows, st2. cbn [s_pc nth_error twice]. destruct (given fl ["-n"]); reflexivity. }
  assert (RUN : forall f, sed_run o fl twice ended (3 + f) (goes 0 (spaces x (mkSed (s_pc st) (s_space st) e (s_hold st) false (s_queue st) n r (s_open st) out))) =
     match starts ended st2 with Some st3 => sed_run o fl twice ended f st3 | None => Some (s_out st2) end).
  { intros f. rewrite H, Q, O. unfold goes, spaces. cbn [s_pc s_space s_ended s_hold s_replaced s_queue s_number s_rest s_open s_out].
    cbn [Nat.add sed_run]. rewrite S0. cbn [sed_run]. rewrite S1. cbn [sed_run]. rewrite S2. reflexivity. }
  cbn [untouched]. fold e. destruct (starts ended st2) as [st3|] eqn:E3.
  - destruct IH as (f & E). exists (3 + f). rewrite RUN, E. unfold st2. cbn [s_out]. rewrite app_nil_r. destruct (given fl ["-n"]); [reflexivity|]. now rewrite app_assoc.
  - subst r. exists (3 + 0). rewrite (RUN 0). unfold st2. cbn [s_out untouched]. rewrite !app_nil_r. destruct (given fl ["-n"]); [now rewrite app_nil_r|reflexivity].
Qed.
Lemma twice_prints o fl input : sed_prints o fl twice input (render (untouched fl (is_ended newline input) (lines input))).
Proof.
  pose proof (twice_runs o fl (is_ended newline input) (lines input) (sed_begin (lines input)) eq_refl eq_refl eq_refl eq_refl) as H.
  unfold sed_prints. destruct (starts _ _) as [st|]; [|now rewrite H]. destruct H as (f & H). eauto.
Qed.
Lemma twice_apart o fl : first_line_apart o fl twice.
Proof.
  intros x rest out1 out2 CL P1 P2. rewrite (sed_prints_fun _ _ _ _ _ _ P1 (twice_prints _ _ _)), (sed_prints_fun _ _ _ _ _ _ P2 (twice_prints _ _ _)).
  replace (render _ +++ render _) with (render (untouched fl (is_ended newline (x +++ String newline rest)) (lines (x +++ String newline rest)))); [apply twice_prints|].
  unfold lines. rewrite !records_terminated_one by exact CL. cbn [records untouched].
  assert (E : forall s, is_ended newline (x +++ String newline s) = is_ended newline s).
  { clear. intros s. induction x as [|a x IH]; [|destruct x; exact IH]. destruct s; reflexivity. }
  rewrite !E. destruct (given fl ["-n"]); cbn [app]; [reflexivity|]. rewrite <- render_app by (repeat constructor). cbn [app is_ended].
  destruct (records newline rest) eqn:ER; [|reflexivity]. apply records_nil in ER. subst rest. reflexivity.
Qed.
Example C59_script_case : exists inv, parse shipped_dir "sed 'x;x'" = Ok inv /\ ~ by_itself twice /\
  let c := filter_civ "sed" [] [PArg "x;x"] in
  invocation_of inv c /\ reads_one c 1 /\ tight c /\ (forall s x, sed_ends simple_meaning (map (wflag_of c s) (v_flags c)) twice x) /\
  forall p, In p (stateless SpecPara.concat) ->
    offered shipped_dir inv p /\ parallel_ok system8 shipped_dir p c 1 (fun n => n <> 0) (fun _ => True).
Proof.
  destruct (parse shipped_dir "sed 'x;x'") as [inv|] eqn:P; [|vm_compute in P; discriminate P]. pose proof P as P'. vm_compute in P'. injection P' as <-.
  eexists. split; [reflexivity|]. split.
  { intros (_ & [H|[H|(before & after & E & H)]]).
    - apply (H (here AExchange)); [now left|cbn; auto].
    - apply (H (here AExchange)); [now left|cbn; auto].
    - destruct before as [|l [|l' before]]; [discriminate| |]; [discriminate|]. injection E as _ _ E. destruct before; discriminate. }
  cbv zeta. split; [split; reflexivity|]. split; [now apply filter_civ_reads|]. split; [now apply filter_civ_tight|].
  assert (EN : forall s x, sed_ends simple_meaning (map (wflag_of (filter_civ "sed" [] [PArg "x;x"]) s) (v_flags (filter_civ "sed" [] [PArg "x;x"]))) twice x)
    by (intros s x; eexists; apply twice_prints).
  split; [exact EN|]. intros p I.
  match goal with |- offered ?d ?i ?p /\ _ => assert (OF : offered d i p) by (eapply offered_first; [vm_compute; reflexivity|exact I]) end.
  split; [exact OF|].
  apply (C59_script_iff _ _ p _ 1 system8 forward_scripts simple_meaning shipped_dir "x;x" [] twice P eq_refl OF);
    [split; reflexivity|now apply filter_civ_reads|now apply filter_civ_tight|reflexivity|vm_compute; reflexivity| |exact system8_sed|exact system8_cat|exact EN|].
  - intros (n & J & U); apply uses_in in U; cbn in J, U; intuition subst; discriminate.
  - intros s. apply twice_apart.
Qed.
(** Reversing the input: the first line is printed last. *)
Example C59_script_wrong_case : exists inv sc out1 out2 out, parse shipped_dir "sed -n '1!G;h;$p'" = Ok inv /\ forward_scripts "1!G;h;$p" = Some sc /\
  let c := filter_civ "sed" [FFlag "-n"] [PArg "1!G;h;$p"] in
  let fl := map (wflag_of c (fun _ => "")) (v_flags c) in
  invocation_of inv c /\ reads_one c 1 /\ tight c /\
  sed_prints simple_meaning fl sc ("a" +++ String newline "") out1 /\ sed_prints simple_meaning fl sc ("b" +++ String newline "") out2 /\
  sed_prints simple_meaning fl sc ("a" +++ String newline ("b" +++ String newline "")) out /\ out <> out1 +++ out2 /\
  forall p, In p (stateless SpecPara.concat) -> offered shipped_dir inv p.
Proof.
  do 5 eexists. split; [vm_compute; reflexivity|]. split; [vm_compute; reflexivity|]. cbv zeta.
  split; [split; reflexivity|]. split; [now apply filter_civ_reads|]. split; [now apply filter_civ_tight|].
  split; [apply run8_prints; now apply forwardb_forward|]. split; [apply run8_prints; now apply forwardb_forward|].
  split; [apply run8_prints; now apply forwardb_forward|]. split; [vm_compute; discriminate|].
  intros p I. eapply offered_first; [vm_compute; reflexivity|exact I].
Qed.
