(** * Sound parallelization of sed and xargs (C59, C60)
    What the commands do is in SpecSem2.v, what plans are in SpecSem.v. *)
From Coq Require Import Lia.
Require Import Verif.PyBase Verif.JsonData Verif.Parser Verif.Access Verif.IOInfo Verif.IOVars
  Verif.Transformers Verif.ParaTypes Verif.ParaGen Verif.MapperAgg Verif.SpecLists Verif.SpecIO Verif.SpecVars Verif.SpecPara
  Verif.ParserFacts Verif.ParaProps Verif.ShippedData Verif.P_Para Verif.SpecSem Verif.SemFacts Verif.SemRun Verif.SemProps Verif.SemSystem
  Verif.P_Sem Verif.SpecSem2 Verif.SemProps2.

(** ** A system for the examples: sed with fixed strings, xargs echo *)
Definition replace_first (r w x : string) : string * bool :=
  match String.index 0 r x with
  | Some n => (String.substring 0 n x +++ w +++ String.substring (n + String.length r) (String.length x) x, true)
  | None => (x, false)
  end.
Definition simple_sed : sed_oracle := mkSedOracle
  (fun _ r x => match String.index 0 r x with Some _ => true | None => false end)
  (fun _ r w _ x => replace_first r w x) (fun n => string_of_list_ascii (repeat "1"%char n)) "usage".
Definition system2 : behaviour := fun seed cmd fl ops inputs =>
  if String.eqb cmd "sed" then
    match ops with
    | WText t :: _ => match read_script t with Some sc => sed_output simple_sed fl sc (joined inputs) | None => "" end
    | _ => ""
    end
  else if String.eqb cmd "xargs" then xargs_output echo fl ops (joined inputs)
  else simple_system seed cmd fl ops inputs.
Lemma system2_cat : is_cat system2.
Proof. intros seed ops inputs _. reflexivity. Qed.
Lemma system2_sed : is_sed simple_sed system2.
Proof. intros seed fl t ops input sc _ _ RS. unfold system2. cbn [String.eqb Ascii.eqb Bool.eqb joined fold_right]. now rewrite RS, append_nil. Qed.
Lemma system2_xargs : is_xargs echo system2.
Proof. intros seed fl ops input _ _. unfold system2. cbn [String.eqb Ascii.eqb Bool.eqb joined fold_right]. now rewrite append_nil. Qed.

(** ** C59: sed *)
(** Sound for scripts that treat every line by itself *)
Theorem C59_sed_partial : forall text inv p c v B o dir script_text ops sc,
  parse shipped_dir text = Ok inv -> cmd_name inv = "sed" -> offered shipped_dir inv p ->
  invocation_of inv c -> reads_one c v -> v_ops c = PArg script_text :: ops -> read_script script_text = Some sc -> line_local sc ->
  ~ uses_any inv ["-e"; "-f"; "--in-place"; "--debug"; "--posix"; "-z"; "--help"; "--version"] ->
  is_sed o B -> is_cat B ->
  parallel_ok B dir p c v (fun n => n <> 0) (fun _ => True).
Proof. exact sed_sound. Qed.
Print Assumptions C59_sed_partial.
Definition sed_local : civ := filter_civ "sed" [FFlag "-n"] [PArg "s/a/b/;/c/p;G"].
Example C59_sed_case : exists inv sc, parse shipped_dir "sed -n 's/a/b/;/c/p;G'" = Ok inv /\ invocation_of inv sed_local /\
  read_script "s/a/b/;/c/p;G" = Some sc /\ line_local sc /\
  forall p, In p (stateless SpecPara.concat) -> offered shipped_dir inv p /\
    parallel_ok system2 shipped_dir p sed_local 1 (fun n => n <> 0) (fun _ => True).
Proof.
  assert (P : parse shipped_dir "sed -n 's/a/b/;/c/p;G'" = Ok (mkInv "sed" [Flag "-n"] ["s/a/b/;/c/p;G"])) by (vm_compute; reflexivity).
  assert (L : line_local [(Always, Subst "a" "b" ""); (Matching "c", Print); (Always, GetAppend)]).
  { split.
    - intros a k [E|[E|[E|[]]]]; injection E as <- <-; repeat split; try intros n; discriminate.
    - left. intros a k [E|[E|[E|[]]]]; injection E as <- <-; intros [H|[H|[H|[]]]]; discriminate. }
  eexists. eexists. split; [exact P|]. split; [split; reflexivity|]. split; [vm_compute; reflexivity|]. split; [exact L|]. intros p I.
  assert (OF : offered shipped_dir (mkInv "sed" [Flag "-n"] ["s/a/b/;/c/p;G"]) p) by (eapply offered_first; [vm_compute; reflexivity|exact I]).
  split; [exact OF|].
  eapply (C59_sed_partial _ _ p sed_local 1 system2 simple_sed shipped_dir _ _ _ P eq_refl OF).
  - split; reflexivity.
  - now apply filter_civ_reads.
  - reflexivity.
  - vm_compute. reflexivity.
  - exact L.
  - intros (n & J & U). apply uses_in in U. cbn in J, U. intuition subst; discriminate.
  - exact system2_sed.
  - exact system2_cat.
Qed.
(** Wrong whenever the script prints or changes the line with a given number, for every such
    number, every meaning of regular expressions and both splitters *)
Theorem C59_line_number_wrong : forall inv p c v B o dir text t ops n k s,
  parse shipped_dir text = Ok inv -> cmd_name inv = "sed" -> In p (stateless SpecPara.concat) ->
  invocation_of inv c -> reads_one c v -> tight c -> v_ops c = PArg t :: ops -> read_script t = Some [(AtLine n, k)] -> 1 <= n ->
  ~ uses_any inv ["-e"; "-f"; "--in-place"; "--debug"; "--posix"; "-z"; "--help"; "--version"] -> is_sed o B -> is_cat B ->
  k = Print \/ (exists r w f x, k = Subst r w f /\ ~ uses inv "-n" /\ has_char "p" f = false /\ has_char newline x = false /\
                  fst (sed_subst o (map (wflag_of c s) (v_flags c)) r w f x) <> x) ->
  parallel_wrong B dir p c v (fun n => n <> 0) (fun _ => True).
Proof. exact at_line_wrong. Qed.
Print Assumptions C59_line_number_wrong.
Example C59_line_number_case : exists inv, parse shipped_dir "sed -n 12p" = Ok inv /\
  parallel_wrong system2 shipped_dir (chunks SpecPara.concat) (filter_civ "sed" [FFlag "-n"] [PArg "12p"]) 1 (fun n => n <> 0) (fun _ => True).
Proof.
  eexists. split; [vm_compute; reflexivity|].
  eapply (C59_line_number_wrong _ _ _ 1 system2 simple_sed shipped_dir "sed -n 12p" "12p" [] 12 Print (fun _ => "")).
  - vm_compute. reflexivity.
  - reflexivity.
  - now left.
  - split; reflexivity.
  - now apply filter_civ_reads.
  - now apply filter_civ_tight.
  - reflexivity.
  - vm_compute. reflexivity.
  - lia.
  - intros (n & J & U). apply uses_in in U. cbn in J, U. intuition subst; discriminate.
  - exact system2_sed.
  - exact system2_cat.
  - now left.
Qed.
(** ... and whenever it quits at a given line after a substitution. *)
Theorem C59_quit_wrong : forall inv p c v B o dir text t ops r w f n,
  parse shipped_dir text = Ok inv -> cmd_name inv = "sed" -> In p (stateless SpecPara.concat) ->
  invocation_of inv c -> reads_one c v -> tight c -> v_ops c = PArg t :: ops ->
  read_script t = Some [(Always, Subst r w f); (AtLine n, Quit)] -> 1 <= n ->
  ~ uses_any inv ["-e"; "-f"; "--in-place"; "--debug"; "--posix"; "-z"; "--help"; "--version"; "-n"] -> is_sed o B -> is_cat B ->
  parallel_wrong B dir p c v (fun n => n <> 0) (fun _ => True).
Proof. exact quit_wrong. Qed.
Print Assumptions C59_quit_wrong.
Example C59_quit_case : exists inv, parse shipped_dir "sed 's/a/b/;10q'" = Ok inv /\
  parallel_wrong system2 shipped_dir (round_robin SpecPara.concat) (filter_civ "sed" [] [PArg "s/a/b/;10q"]) 1 (fun n => n <> 0) (fun _ => True).
Proof.
  eexists. split; [vm_compute; reflexivity|].
  eapply (C59_quit_wrong _ _ _ 1 system2 simple_sed shipped_dir "sed 's/a/b/;10q'" "s/a/b/;10q" [] "a" "b" "" 10).
  - vm_compute. reflexivity.
  - reflexivity.
  - now right; left.
  - split; reflexivity.
  - now apply filter_civ_reads.
  - now apply filter_civ_tight.
  - reflexivity.
  - vm_compute. reflexivity.
  - lia.
  - intros (n & J & U). apply uses_in in U. destruct U.
  - exact system2_sed.
  - exact system2_cat.
Qed.
(** Refuted: each of these is offered the concatenation, and a wrong result is possible. *)
Definition sed_wrong_scripts : list (string * list flag_el * string * string * string) :=
  [("sed 1s/a/b/", [], "1s/a/b/", "a
", "a
"); ("sed 's/a/b/;2q'", [], "s/a/b/;2q", "a
a
", "a
"); ("sed 's/a/b/;1d'", [], "s/a/b/;1d", "a
", "a
"); ("sed -n 2p", [FFlag "-n"], "2p", "a
a
", "b
b
"); ("sed -n '$p'", [FFlag "-n"], "$p", "a
", "b
"); ("sed =", [], "=", "a
", "b
"); ("sed -n '$='", [FFlag "-n"], "$=", "a
", "b
"); ("sed x", [], "x", "a
", "b
"); ("sed 'G;h'", [], "G;h", "a
", "b
"); ("sed -z s/a/b/", [FFlag "-z"], "s/a/b/", "a
", "a
"); ("sed --help s/a/b/", [FFlag "--help"], "s/a/b/", "", "")].
Theorem C59_sed_refuted : forall text flags t first second, In (text, flags, t, first, second) sed_wrong_scripts ->
  exists inv sc, parse shipped_dir text = Ok inv /\ read_script t = Some sc /\
  let c := filter_civ "sed" flags [PArg t] in
  invocation_of inv c /\ reads_one c 1 /\
  forall p, In p (stateless SpecPara.concat) ->
    offered shipped_dir inv p /\
    parallel_wrong system2 shipped_dir p c 1 (fun n => n <> 0) (fun input => input = first +++ second).
Proof.
  intros text flags t first second I. unfold sed_wrong_scripts in I. cbn [In] in I.
  repeat (destruct I as [E|I]; [injection E as <- <- <- <- <-|]); try destruct I.
  all: eexists; eexists; split; [vm_compute; reflexivity|]; (split; [vm_compute; reflexivity|]); cbv zeta;
    (split; [split; reflexivity|]); (split; [now apply filter_civ_reads|]);
    intros p I; (split; [eapply offered_first; [vm_compute; reflexivity|exact I]|]).
  all: match goal with |- parallel_wrong _ _ _ _ _ _ (fun input => input = ?a +++ ?b) =>
         apply (concat_wrong system2 shipped_dir p _ 1 (fun input => input = a +++ b) (fun _ => "") a b) end;
    [now apply filter_civ_reads|now apply filter_civ_tight|exact I|exact system2_cat|reflexivity| |split; reflexivity|intros sd; vm_compute; discriminate].
  all: (left; reflexivity) || (right; exists "a"; reflexivity) || (right; exists "a
a"; reflexivity).
Qed.
Print Assumptions C59_sed_refuted.
(** On the other hand, scripts that delete matching lines are not offered anything although it would be sound. *)
Theorem C59_delete_not_offered : exists inv sc, parse shipped_dir "sed /x/d" = Ok inv /\ read_script "/x/d" = Some sc /\ line_local sc /\
  forall p, ~ offered shipped_dir inv p.
Proof.
  assert (P : parse shipped_dir "sed /x/d" = Ok (mkInv "sed" [] ["/x/d"])) by (vm_compute; reflexivity).
  eexists. eexists. split; [exact P|]. split; [vm_compute; reflexivity|]. split.
  - split; [intros a k [E|[]]; injection E as <- <-; repeat split; try intros n; discriminate|].
    left. intros a k [E|[]]; injection E as <- <-; intros [H|[H|[H|[]]]]; discriminate.
  - intros p (i & k & ls & i' & l & G & CA & IL & I). apply (C28_only_sort shipped_dir _ i k ls i' l G) in CA as ->; auto.
    + vm_compute in G. injection G as <-. exact I.
    + intros [E|[E|[]]]; discriminate.
Qed.
Print Assumptions C59_delete_not_offered.
(** sed -i is offered the concatenation of the results, although its results go to files: the
    data file does not declare -i, so that it is the first operand and starts with a dash. *)
Theorem C59_in_place_offered : forall inv p rest, cmd_name inv = "sed" -> operand_list inv = "-i" :: rest ->
  In p (stateless SpecPara.concat) -> offered shipped_dir inv p.
Proof.
  intros inv p rest C E I.
  assert (A : annotated shipped_dir inv (Some (stateless SpecPara.concat, false))).
  { apply (an_sed _ _ "-i" rest C E). left. now exists "i". }
  apply C25_exact in A. destruct (get_parallelizability_info shipped_dir inv) as [i|] eqn:G; [|discriminate]. injection A as A _.
  eapply offered_first; [exact G|]. now rewrite <- A.
Qed.
Print Assumptions C59_in_place_offered.
Example C59_in_place_case : parse shipped_dir "sed -i 3d file" = Ok (mkInv "sed" [] ["-i"; "3d"; "file"]).
Proof. vm_compute. reflexivity. Qed.

(** ** C60: xargs *)
(** With no other flags than -n, -r and -t: sound for every command exactly if the command gets
    one argument at a time and is not run without arguments. *)
Theorem C60_xargs_iff : forall inv p c v dir,
  cmd_name inv = "xargs" -> offered shipped_dir inv p ->
  Forall (fun fo => In (fo_name fo) ["-n"; "-r"; "-t"]) (flag_option_list inv) ->
  invocation_of inv c -> reads_one c v -> tight c ->
  (forall B o, is_xargs o B -> is_cat B -> parallel_ok B dir p c v (fun n => n <> 0) xargs_plain) <->
  forall s, last_number (map (wflag_of c s) (v_flags c)) ["-n"] = Some 0 \/
            (last_number (map (wflag_of c s) (v_flags c)) ["-n"] = Some 1 /\ uses inv "-r").
Proof. exact xargs_iff. Qed.
Print Assumptions C60_xargs_iff.
(** For a given command: one at a time, and nothing is printed without arguments *)
Theorem C60_xargs_one : forall inv p c v B o dir,
  cmd_name inv = "xargs" -> offered shipped_dir inv p ->
  Forall (fun fo => In (fo_name fo) ["-n"; "-r"; "-t"]) (flag_option_list inv) ->
  invocation_of inv c -> reads_one c v ->
  (forall s, last_number (map (wflag_of c s) (v_flags c)) ["-n"] = Some 1 /\
             (uses inv "-r" \/ exec o (map (word_of c s) (v_ops c)) [] = "")) ->
  is_xargs o B -> is_cat B ->
  parallel_ok B dir p c v (fun n => n <> 0) xargs_plain.
Proof.
  intros inv p c v B o dir C OF F IN R H XB CB. apply (xargs_sound inv p c v B o dir); auto. intros s. right.
  destruct (H s) as (E & H'). split; [exact E|]. destruct H' as [U|U]; [left|now right].
  apply (given_uses inv); [exact IN|]. exists "-r". split; [now left|exact U].
Qed.
Print Assumptions C60_xargs_one.
Lemma xargs_offered inv p : cmd_name inv = "xargs" -> In p (stateless SpecPara.concat) -> offered shipped_dir inv p.
Proof.
  intros C I. assert (A : annotated shipped_dir inv (Some (stateless SpecPara.concat, false))) by (apply an_stateless; rewrite C; cbn; auto).
  apply C25_exact in A. destruct (get_parallelizability_info shipped_dir inv) as [i|] eqn:G; [|discriminate]. injection A as A _.
  eapply offered_first; [exact G|]. now rewrite <- A.
Qed.
Definition xargs_1 : civ := filter_civ "xargs" [FFlag "-r"; FOptIO "-n" (PArg "1")] [PArg "echo"].
Example C60_xargs_case : parse shipped_dir "xargs -r -n 1 echo" = Ok (mkInv "xargs" [Flag "-r"; Option_ "-n" "1"] ["echo"]) /\
  forall B o p, is_xargs o B -> is_cat B -> In p (stateless SpecPara.concat) ->
    parallel_ok B shipped_dir p xargs_1 1 (fun n => n <> 0) xargs_plain.
Proof.
  split; [vm_compute; reflexivity|]. intros B o p XB CB I.
  apply (C60_xargs_iff (mkInv "xargs" [Flag "-r"; Option_ "-n" "1"] ["echo"]) p xargs_1 1 shipped_dir) with (o := o); auto.
  - now apply xargs_offered.
  - apply Forall_forall. intros fo [<-|[<-|[]]]; cbn; auto.
  - split; reflexivity.
  - now apply filter_civ_reads.
  - now apply filter_civ_tight.
  - intros s. right. split; [reflexivity|]. exists (Flag "-r"). cbn. auto.
Qed.
(** Refuted: xargs is always offered the concatenation, and a wrong result is possible. *)
Definition xargs_wrong : list (string * list flag_el * string * string) :=
  [("xargs echo", [], "a
", "b
"); ("xargs -n 2 echo", [FOptIO "-n" (PArg "2")], "a
", "b c
"); ("xargs -r echo", [FFlag "-r"], "a
", "b
"); ("xargs -n 1 echo", [FOptIO "-n" (PArg "1")], "a
", "

")].
Theorem C60_xargs_refuted : forall text flags first second, In (text, flags, first, second) xargs_wrong ->
  exists inv, parse shipped_dir text = Ok inv /\
  let c := filter_civ "xargs" flags [PArg "echo"] in
  invocation_of inv c /\ reads_one c 1 /\ xargs_plain (first +++ second) /\
  forall p, In p (stateless SpecPara.concat) ->
    offered shipped_dir inv p /\
    parallel_wrong system2 shipped_dir p c 1 (fun n => n <> 0) (fun input => input = first +++ second).
Proof.
  intros text flags first second I. unfold xargs_wrong in I. cbn [In] in I.
  repeat (destruct I as [E|I]; [injection E as <- <- <- <-|]); try destruct I.
  all: eexists; split; [vm_compute; reflexivity|]; cbv zeta;
    (split; [split; reflexivity|]); (split; [now apply filter_civ_reads|]); (split; [reflexivity|]);
    intros p I; (split; [now apply xargs_offered|]).
  all: match goal with |- parallel_wrong _ _ _ _ _ _ (fun input => input = ?a +++ ?b) =>
         apply (concat_wrong system2 shipped_dir p _ 1 (fun input => input = a +++ b) (fun _ => "") a b) end;
    [now apply filter_civ_reads|now apply filter_civ_tight|exact I|exact system2_cat|reflexivity| |split; reflexivity|intros sd; vm_compute; discriminate].
  all: right; exists "a"; reflexivity.
Qed.
Print Assumptions C60_xargs_refuted.
