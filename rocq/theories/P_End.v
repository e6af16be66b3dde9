(** * From command lines to sound plans (C73) *)
From Coq Require Import Lia.
Require Import Verif.PyBase Verif.JsonData Verif.Parser Verif.Access Verif.IOInfo Verif.IOGen Verif.IOVars
  Verif.Transformers Verif.ParaTypes Verif.ParaGen Verif.MapperAgg Verif.SpecLists Verif.SpecParser Verif.SpecIO Verif.SpecVars Verif.SpecPara
  Verif.ParserFacts Verif.ParaProps Verif.ShippedData Verif.P_IO Verif.P_Para Verif.SpecSem Verif.SemFacts Verif.SemRun Verif.SemProps Verif.SemSystem
  Verif.SpecSem2 Verif.SpecSem3 Verif.SpecSem5 Verif.SpecSem8 Verif.P_Sem Verif.P_Sem2 Verif.P_Sem3 Verif.P_Sem5 Verif.P_Sem8 Verif.SpecEnd Verif.EndFacts.

(** ** Numbering *)
(** Every invocation with input/output information can be numbered. *)
Theorem C73_numbering_exists : forall a, exists c, numbered a c.
Proof. intros a. exists (number_it a). apply number_it_numbered. Qed.
Print Assumptions C73_numbering_exists.
(** Whichever way it is numbered, there is one streaming input and one streaming output for the
    plans exactly if the information says so. *)
Theorem C73_one_stream : forall a c, numbered a c -> plain_streams a -> (exists v, reads_one c v) <-> one_stream a.
Proof. exact numbered_reads. Qed.
Print Assumptions C73_one_stream.
(** For parsed command lines this is decided by the command, the number of operands and a few
    options. *)
Theorem C73_lines : forall text inv a c,
  parse shipped_dir text = Ok inv -> with_io shipped_dir inv a -> numbered a c ->
  invocation_of inv c /\ tight c /\ ((exists v, reads_one c v) <-> one_stream_line inv).
Proof.
  intros text inv a c PA WI N. split; [eapply numbered_invocation; eauto|]. split; [apply N|].
  destruct (one_stream_lines text inv a PA WI) as (PS & <-). now apply numbered_reads.
Qed.
Print Assumptions C73_lines.
(** Then the streaming input is the only variable with that access. *)
Theorem C73_input : forall text inv a c,
  parse shipped_dir text = Ok inv -> with_io shipped_dir inv a -> numbered a c -> one_stream_line inv ->
  (exists! v, streams_in c v) /\ forall v, streams_in c v -> reads_one c v.
Proof.
  intros text inv a c PA WI N L. destruct (C73_lines text inv a c PA WI N) as (_ & _ & R). apply R in L.
  split; [|intros v; now apply (streams_in_reads a)]. destruct L as (i & L). exists i. split; [now apply reads_streams_in|].
  intros w S. assert (RW : reads_one c w) by (apply (streams_in_reads a); eauto).
  destruct RW as (_ & K & _), L as (_ & K' & _). apply kept_filter in K, K'. congruence.
Qed.
Print Assumptions C73_input.

Definition numbered_example : civ := mkCiv "grep" [FFlag "-i"; FOptIO "-f" (PRes (mkRes (FileName "pats") CONFIG_INPUT))] [PVar 5] PNone (PVar 9)
  (fun v => if Z.eqb v 5 then Some STREAM_INPUT else if Z.eqb v 9 then Some STREAM_OUTPUT else None).
Example C73_lines_case : exists inv a, parse shipped_dir "grep -i -f pats data" = Ok inv /\ with_io shipped_dir inv a /\
  numbered a numbered_example /\ one_stream_line inv /\ streams_in numbered_example 5.
Proof.
  eexists. eexists. split; [vm_compute; reflexivity|]. split; [eexists; split; vm_compute; reflexivity|]. split; [|split].
  - split; [reflexivity|]. split; [apply Forall2_cons; [constructor|apply Forall2_cons; [apply nf_kept; discriminate|apply Forall2_nil]]|].
    split; [apply Forall2_cons; [exists 5%Z; auto|apply Forall2_nil]|]. split; [reflexivity|]. split; [exists 9%Z; auto|].
    split; [split|].
    + cbn. repeat constructor; cbn; intuition discriminate.
    + cbn. intuition subst; discriminate.
    + intros v. cbn. destruct (Z.eqb_spec v 5); [auto|]. destruct (Z.eqb_spec v 9); [auto|congruence].
  - cbn. split; [intros (fo & [<-|[<-|[]]] & E); discriminate|]. left. split; [|lia]. right. eexists. split; [right; left; reflexivity|reflexivity].
  - reflexivity.
Qed.
(** Command lines with more streams, or with none: all of these parse and have information. *)
Definition other_lines : list string :=
  ["cat a b"; "sort -o out in"; "sort --files0-from list"; "grep -q x"; "grep x a b"; "sed -n p in"; "comm a b"; "diff a b"; "uniq in out";
   "tee log"; "mv a b"; "rm a"; "seq 1 9"; "diff --from-file a b"; "col in"].
Example C73_other_lines : forall text, In text other_lines -> exists inv a, parse shipped_dir text = Ok inv /\ with_io shipped_dir inv a /\
  forall c, numbered a c -> ~ exists v, reads_one c v.
Proof.
  assert (G : forall text inv, parse shipped_dir text = Ok inv -> (exists a, with_io shipped_dir inv a) -> ~ one_stream_line inv ->
    exists inv a, parse shipped_dir text = Ok inv /\ with_io shipped_dir inv a /\ forall c, numbered a c -> ~ exists v, reads_one c v).
  { intros text inv PA (a & WI) NL. exists inv, a. split; [exact PA|]. split; [exact WI|]. intros c N R. now apply (C73_lines text inv a c PA WI N) in R. }
  intros text I. cbn in I. repeat (destruct I as [<-|I]; [eapply G; [vm_compute; reflexivity|eexists; eexists; split; vm_compute; reflexivity|]|]); [..|destruct I].
  all: unfold one_stream_line; cbn; try lia; try tauto.
  - intros (N & _). apply N. eexists. split; [left; reflexivity|reflexivity].
  - intros (_ & [E|(_ & N)]); [discriminate|]. apply N. eexists. split; [left; reflexivity|reflexivity].
  - intros (N & _). apply N. eexists. split; [left; reflexivity|reflexivity].
  - intros (_ & N). apply N. do 2 eexists. split; [left; reflexivity|now left].
Qed.

(** ** Sound plans *)
(** The condition is about the command line only: the system, the way of numbering and the
    plan are arbitrary. *)
Theorem C73_cut : forall text inv p a c v dir,
  parse shipped_dir text = Ok inv -> cmd_name inv = "cut" -> offered shipped_dir inv p ->
  with_io shipped_dir inv a -> numbered a c -> streams_in c v -> one_stream_line inv ->
  (forall B o, is_record_wise o "cut" cut_names B -> is_cat B -> parallel_ok B dir p c v (fun n => n <> 0) (fun _ => True)) <->
  ~ uses_any inv ["-z"; "--help"; "--version"].
Proof.
  intros text inv p a c v dir PA C OF WI N S L. destruct (C73_lines text inv a c PA WI N) as (IN & T & _).
  apply (C51_cut_iff text); auto. now apply (C73_input text inv a c PA WI N L).
Qed.
Print Assumptions C73_cut.

Ltac no_files := eexists; split; [left; vm_compute; reflexivity|vm_compute; reflexivity].
Definition grep_numbers : list string :=
  ["-m"; "--max-count"; "-A"; "--after-context"; "-B"; "--before-context"; "-C"; "--context"].
Theorem C73_grep : forall text inv p a c v dir,
  parse shipped_dir text = Ok inv -> cmd_name inv = "grep" -> offered shipped_dir inv p ->
  with_io shipped_dir inv a -> numbered a c -> streams_in c v -> one_stream_line inv -> ~ uses_any inv ["-r"; "-R"; "-H"] ->
  (forall B o, is_grep o B -> is_cat B -> parallel_ok B dir p c v (fun n => n <> 0) (fun input => is_text input \/ uses inv "-a")) <->
  grep_safe (as_words inv).
Proof.
  intros text inv p a c v dir PA C OF WI N S L U. destruct (C73_lines text inv a c PA WI N) as (IN & T & _).
  rewrite (C51_grep_iff text inv p c v dir PA C OF IN); [|now apply (C73_input text inv a c PA WI N L)|exact T|exact U].
  assert (E : forall s, grep_safe (map (wflag_of c s) (v_flags c)) <-> grep_safe (as_words inv)).
  { intros s. assert (SE : seen_as grep_numbers inv (map (wflag_of c s) (v_flags c))) by (eapply (seen text inv a c s "grep"); eauto; no_files).
    unfold grep_safe, before, after. rewrite !(seen_given _ _ _ _ SE), !(seen_number _ _ _ _ SE); [reflexivity|..]; intros n I; unfold grep_numbers; cbn in *; tauto. }
  split; [intros H; exact (proj1 (E (fun _ => "")) (H _))|intros H s; now apply E].
Qed.
Print Assumptions C73_grep.

Theorem C73_sort : forall text inv p a c v dir,
  parse shipped_dir text = Ok inv -> cmd_name inv = "sort" -> offered shipped_dir inv p ->
  with_io shipped_dir inv a -> numbered a c -> streams_in c v -> one_stream_line inv ->
  (forall B o, is_sort o B -> sort_oracle_ok o -> fair o -> parallel_ok B dir p c v (fun n => n = 2) (fun _ => True)) <->
  ~ uses_any inv ["--help"; "--version"; "--debug"] /\ random_order (as_words inv) = false.
Proof.
  intros text inv p a c v dir PA C OF WI N S L. destruct (C73_lines text inv a c PA WI N) as (IN & T & _).
  assert (R : reads_one c v) by (now apply (C73_input text inv a c PA WI N L)).
  unfold one_stream_line in L. rewrite C in L. destruct L as (NO & _).
  rewrite (C50_sort_iff text inv p c v dir PA C OF IN R T NO).
  assert (E : forall s, random_order (map (wflag_of c s) (v_flags c)) = random_order (as_words inv)).
  { intros s. apply (seen_random ["-R"; "--sort"; "-k"]); [|cbn; auto..]. eapply (seen text inv a c s "sort"); eauto; no_files. }
  split; intros (H1 & H2); (split; [exact H1|]); [rewrite <- (E (fun _ => "")); apply H2|intros s; now rewrite E].
Qed.
Print Assumptions C73_sort.

Theorem C73_tr : forall text inv p a c v B o dir,
  parse shipped_dir text = Ok inv -> cmd_name inv = "tr" -> In p (stateless SpecPara.concat) ->
  with_io shipped_dir inv a -> numbered a c -> streams_in c v -> is_tr o B -> is_cat B ->
  parallel_ok B dir p c v (fun n => n <> 0) (fun _ => True) <-> tr_safe o (as_words inv) (map WText (operand_list inv)).
Proof.
  intros text inv p a c v B o dir PA C OF WI N S TB CB. destruct (C73_lines text inv a c PA WI N) as (IN & T & _).
  assert (L : one_stream_line inv) by (unfold one_stream_line; rewrite C; exact I).
  rewrite (C58_tr_iff text inv p c v B o dir PA C OF IN); [|now apply (C73_input text inv a c PA WI N L)|exact T|exact TB|exact CB].
  assert (E : forall s, map (wflag_of c s) (v_flags c) = as_words inv) by (intros s; eapply (seen_all text inv a c s "tr"); eauto; no_files).
  assert (E' : forall s, map (word_of c s) (v_ops c) = map WText (operand_list inv)).
  { intros s. destruct N as (_ & _ & NO & _). eapply string_operands; [exact NO|].
    apply C24_tr_xargs in WI as ((_ & _ & W) & _); [exact W|]. rewrite C. now left. }
  split; [intros H; specialize (H (fun _ => "")); now rewrite E, E' in H|intros H s; now rewrite E, E'].
Qed.
Print Assumptions C73_tr.

Theorem C73_uniq : forall text inv p a c v,
  parse shipped_dir text = Ok inv -> cmd_name inv = "uniq" -> offered shipped_dir inv p ->
  with_io shipped_dir inv a -> numbered a c -> streams_in c v -> one_stream_line inv ->
  ~ uses inv "-" -> ~ uses inv "-c" -> ~ (uses inv "-u" /\ uses inv "--group") ->
  (forall B o, is_uniq o B -> adjacent_ok B p c v) <->
  ~ uses_any inv ["-u"; "-z"; "--help"; "--version"] /\
  (forall m, group_method (as_words inv) = Some m -> ~ In m ["prepend"; "append"; "both"]).
Proof.
  intros text inv p a c v PA C OF WI N S L U1 U2 U3. destruct (C73_lines text inv a c PA WI N) as (IN & T & _).
  rewrite (C61_uniq_iff text inv p c v PA C OF IN); [|now apply (C73_input text inv a c PA WI N L)|exact T|exact U1|exact U2|exact U3].
  assert (E : forall s, map (wflag_of c s) (v_flags c) = as_words inv) by (intros s; eapply (seen_all text inv a c s "uniq"); eauto; no_files).
  split; intros (H1 & H2); (split; [exact H1|]); [intros m; rewrite <- (E (fun _ => "")); apply H2|intros s m; rewrite E; apply H2].
Qed.
Print Assumptions C73_uniq.

Theorem C73_xargs : forall text inv p a c v dir,
  parse shipped_dir text = Ok inv -> cmd_name inv = "xargs" -> offered shipped_dir inv p ->
  with_io shipped_dir inv a -> numbered a c -> streams_in c v ->
  Forall (fun fo => In (fo_name fo) ["-n"; "-r"; "-t"]) (flag_option_list inv) ->
  (forall B o, is_xargs o B -> is_cat B -> parallel_ok B dir p c v (fun n => n <> 0) xargs_plain) <->
  last_number (as_words inv) ["-n"] = Some 0 \/ (last_number (as_words inv) ["-n"] = Some 1 /\ uses inv "-r").
Proof.
  intros text inv p a c v dir PA C OF WI N S F. destruct (C73_lines text inv a c PA WI N) as (IN & T & _).
  assert (L : one_stream_line inv) by (unfold one_stream_line; rewrite C; exact I).
  rewrite (C60_xargs_iff inv p c v dir C OF F IN); [|now apply (C73_input text inv a c PA WI N L)|exact T].
  assert (E : forall s, last_number (map (wflag_of c s) (v_flags c)) ["-n"] = last_number (as_words inv) ["-n"]).
  { intros s. apply (seen_number ["-n"]); [|auto]. eapply (seen text inv a c s "xargs"); eauto; no_files. }
  split; [intros H; specialize (H (fun _ => "")); now rewrite E in H|intros H s; now rewrite E].
Qed.
Print Assumptions C73_xargs.

Theorem C73_sed : forall text inv p a c v B reads o dir script_text sc,
  parse shipped_dir text = Ok inv -> cmd_name inv = "sed" -> offered shipped_dir inv p ->
  with_io shipped_dir inv a -> numbered a c -> streams_in c v ->
  operand_list inv = [script_text] -> reads script_text = Some sc -> by_itself sc -> forward sc ->
  ~ uses_any inv sed_others -> is_sed_full reads o B -> is_cat B ->
  parallel_ok B dir p c v (fun n => n <> 0) (fun _ => True).
Proof.
  intros text inv p a c v B reads o dir script_text sc PA C OF WI N S OPS RS BI F U SB CB. destruct (C73_lines text inv a c PA WI N) as (IN & T & _).
  assert (NE : ~ uses inv "-e" /\ ~ uses inv "-f").
  { split; intros X; apply U; eexists; (split; [|exact X]); unfold sed_others; cbn; auto. }
  assert (L : one_stream_line inv) by (unfold one_stream_line; rewrite C, OPS; cbn; tauto).
  assert (W : io_operand_list a = [ArgString script_text]).
  { apply C21_sed in WI as (xs & [(X & _)|(_ & s & l & E & ->)] & (_ & _ & ->) & _); [tauto| |exact C]. rewrite OPS in E. now injection E as <- <-. }
  assert (V : v_ops c = [PArg script_text]).
  { destruct N as (_ & _ & NO & _). rewrite W in NO. inversion NO as [|x y xs ys ST NO']; subst. cbn in ST. inversion NO'. now subst. }
  eapply (C59_forward_partial text inv p c v B reads o dir script_text [] sc); eauto. now apply (C73_input text inv a c PA WI N L).
Qed.
Print Assumptions C73_sed.

(** Command lines that meet the hypotheses, both on files and on standard input *)
Definition good_lines : list string :=
  ["cut -d : -f 1 /etc/passwd"; "cut -c 1-4"; "grep -i -f pats data"; "grep -A 1 x"; "sort -k 2n data"; "sort --sort random"; "tr a-z A-Z"; "tr -s ' '";
   "uniq data"; "uniq --group append"; "xargs -n 1 -r echo"; "xargs -n 2 echo"; "sed s/a/b/"].
Example C73_cases : forall text, In text good_lines -> exists inv p a c v, parse shipped_dir text = Ok inv /\ offered shipped_dir inv p /\
  with_io shipped_dir inv a /\ numbered a c /\ streams_in c v /\ one_stream_line inv.
Proof.
  assert (G : forall text inv i p l, parse shipped_dir text = Ok inv -> get_parallelizability_info shipped_dir inv = Some i ->
    parallelizer_list i = p :: l -> (exists a, with_io shipped_dir inv a) -> one_stream_line inv ->
    exists inv p a c v, parse shipped_dir text = Ok inv /\ offered shipped_dir inv p /\
      with_io shipped_dir inv a /\ numbered a c /\ streams_in c v /\ one_stream_line inv).
  { intros text inv i p l PA GI PL (a & WI) L. destruct (C73_numbering_exists a) as (c & N).
    destruct (C73_input text inv a c PA WI N L) as ((v & V & _) & _). exists inv, p, a, c, v.
    split; [exact PA|]. split; [eapply offered_first; [exact GI|rewrite PL; now left]|]. auto. }
  intros text I. cbn in I. repeat (destruct I as [<-|I]; [eapply G; [vm_compute; reflexivity|vm_compute; reflexivity|cbn; reflexivity|eexists; eexists; split; vm_compute; reflexivity|]|]); [..|destruct I].
  all: unfold one_stream_line; cbn; try lia; try tauto.
  all: assert (IFF : forall i n, uses i n <-> In n (map fo_name (flag_option_list i))) by
    (intros i n; unfold uses; rewrite in_map_iff; split; intros (x & A & B); eauto).
  all: rewrite !IFF; clear; cbn; intuition (try discriminate; try lia).
Qed.
(** What the theorems say about some of them *)
Example C73_verdicts :
  (forall p a c v inv, parse shipped_dir "grep -A 1 x" = Ok inv -> offered shipped_dir inv p -> with_io shipped_dir inv a -> numbered a c -> streams_in c v ->
     ~ forall B o, is_grep o B -> is_cat B -> parallel_ok B shipped_dir p c v (fun n => n <> 0) (fun input => is_text input \/ uses inv "-a")) /\
  (forall p a c v inv B o, parse shipped_dir "grep -i -f pats data" = Ok inv -> offered shipped_dir inv p -> with_io shipped_dir inv a -> numbered a c -> streams_in c v ->
     is_grep o B -> is_cat B -> parallel_ok B shipped_dir p c v (fun n => n <> 0) (fun input => is_text input \/ uses inv "-a")).
Proof.
  assert (NU : forall i n, ~ In n (map fo_name (flag_option_list i)) -> ~ uses i n).
  { intros i n N (fo & J & <-). apply N. now apply in_map. }
  split.
  - intros p a c v inv PA OF WI N S H. apply (C73_grep _ inv p a c v shipped_dir PA) in H; auto.
    all: vm_compute in PA; injection PA as <-.
    + destruct H as (_ & [(E & _)|(_ & _ & E & _)]); vm_compute in E; discriminate.
    + reflexivity.
    + cbn. split; [apply NU; cbn; intuition discriminate|]. right. repeat split; [apply NU; cbn; intuition discriminate..|now left].
    + intros (n & J & U). revert U. apply NU. cbn in *. intuition (subst; discriminate).
  - intros p a c v inv B o PA OF WI N S GB CB. revert B o GB CB. apply (C73_grep _ inv p a c v shipped_dir PA); auto.
    all: vm_compute in PA; injection PA as <-.
    + reflexivity.
    + cbn. split; [apply NU; cbn; intuition discriminate|]. left. split; [|lia]. right. eexists. split; [right; left; reflexivity|reflexivity].
    + intros (n & J & U). revert U. apply NU. cbn in *. intuition (subst; discriminate).
    + split; [reflexivity|]. right. repeat split; reflexivity.
Qed.
