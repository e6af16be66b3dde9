(** * When grep and sort are parallelized soundly (C50, C51) *)
From Coq Require Import Lia.
Require Import Verif.PyBase Verif.JsonData Verif.Parser Verif.Access Verif.IOInfo Verif.IOVars
  Verif.Transformers Verif.ParaTypes Verif.ParaGen Verif.MapperAgg Verif.SpecLists Verif.SpecIO Verif.SpecVars Verif.SpecPara
  Verif.ParserFacts Verif.ParaProps Verif.ShippedData Verif.P_Para Verif.SpecSem Verif.SemFacts Verif.SemRun Verif.SemProps Verif.SemSystem
  Verif.P_Sem Verif.SpecSem5 Verif.SemProps5.

Lemma ok_not_wrong B dir p c v P (Q Q' : string -> Prop) : (forall x, Q' x -> Q x) ->
  parallel_ok B dir p c v P Q -> parallel_wrong B dir p c v P Q' -> False.
Proof.
  intros I OK (s & t & r & F & A & HQ & D & E & N). apply (N 0). eapply C50_one_result; [exact E|]. apply OK; auto.
Qed.

(** ** C51 *)
(** The results of grep may be concatenated, whatever the patterns mean, exactly if this holds: *)
Theorem C51_grep_iff : forall text inv p c v dir,
  parse shipped_dir text = Ok inv -> cmd_name inv = "grep" -> offered shipped_dir inv p ->
  invocation_of inv c -> reads_one c v -> tight c -> ~ uses_any inv ["-r"; "-R"; "-H"] ->
  (forall B o, is_grep o B -> is_cat B -> parallel_ok B dir p c v (fun n => n <> 0) (fun input => is_text input \/ uses inv "-a")) <->
  forall s, grep_safe (map (wflag_of c s) (v_flags c)).
Proof.
  intros text inv p c v dir PA C OF IN R T U. split.
  - intros H s. assert (D : forall fl, {grep_safe fl} + {~ grep_safe fl}).
    { intros fl. unfold grep_safe. destruct (given fl ["--help"; "-V"]); [right; intros (E & _); discriminate|].
      destruct (last_number fl ["-m"; "--max-count"]) as [[|n]|].
      - destruct (given fl ["-l"]); [left; auto|]. destruct (given fl ["-L"; "-c"]); [|left; auto].
        right. intros (_ & [(_ & [E|E])|(E & _)]); discriminate.
      - right. intros (_ & [(E & _)|(E & _)]); discriminate.
      - destruct (before fl); [|right; intros (_ & [(E & _)|(_ & E & _)]); discriminate].
        destruct (after fl); [|right; intros (_ & [(E & _)|(_ & _ & E & _)]); discriminate].
        destruct (given fl ["-l"; "-L"; "-c"; "-n"; "-b"; "-z"]); [right; intros (_ & [(E & _)|(_ & _ & _ & E)]); discriminate|]. left. auto 10. }
    destruct (D (map (wflag_of c s) (v_flags c))) as [Y|Y]; [exact Y|exfalso].
    eapply ok_not_wrong; [|apply (H telling_system telling_grep telling_is_grep telling_is_cat)|eapply grep_unsafe_wrong; eauto].
    intros x X. now left.
  - intros SA B o GB CB. eapply grep_safe_sound; eauto.
Qed.
Print Assumptions C51_grep_iff.
(** Otherwise there is a text, without NUL, for which some plan prints what grep never prints. *)
Theorem C51_grep_wrong : forall text inv p c v dir s,
  parse shipped_dir text = Ok inv -> cmd_name inv = "grep" -> offered shipped_dir inv p ->
  invocation_of inv c -> reads_one c v -> tight c -> ~ grep_safe (map (wflag_of c s) (v_flags c)) ->
  exists B o, is_grep o B /\ is_cat B /\ parallel_wrong B dir p c v (fun n => n <> 0) is_text.
Proof.
  intros text inv p c v dir s PA C OF IN R T NS. exists telling_system, telling_grep.
  split; [exact telling_is_grep|]. split; [exact telling_is_cat|]. eapply grep_unsafe_wrong; eauto.
Qed.
Print Assumptions C51_grep_wrong.
(** grep -c a gets no parallelizer, but grep -c -A 0 a does (C32), although the counts of the
    parts are then printed one after the other.  grep -A 0 a is fine, and so is grep -m 0 -z -n a. *)
Definition grep_examples : list (string * list flag_el * bool) :=
  [("grep -c -A 0 a", [FFlag "-c"; FOptIO "-A" (PArg "0")], false);
   ("grep -A 0 a", [FOptIO "-A" (PArg "0")], true);
   ("grep -m 0 -z -n a", [FOptIO "-m" (PArg "0"); FFlag "-z"; FFlag "-n"], true);
   ("grep -m 0 -c a", [FOptIO "-m" (PArg "0"); FFlag "-c"], false);
   ("grep -m 2 -C 3 a", [FOptIO "-m" (PArg "2"); FOptIO "-C" (PArg "3")], false);
   ("grep -C 3 -A 0 -B 0 a", [FOptIO "-C" (PArg "3"); FOptIO "-A" (PArg "0"); FOptIO "-B" (PArg "0")], true)].
Example C51_grep_iff_case : forall text flags safe, In (text, flags, safe) grep_examples ->
  exists inv, parse shipped_dir text = Ok inv /\ let c := filter_civ "grep" flags [PArg "a"] in
  invocation_of inv c /\ reads_one c 1 /\ tight c /\ ~ uses_any inv ["-r"; "-R"; "-H"] /\
  (forall p, In p (stateless SpecPara.concat) -> offered shipped_dir inv p) /\
  (if safe then forall s, grep_safe (map (wflag_of c s) (v_flags c)) else forall s, ~ grep_safe (map (wflag_of c s) (v_flags c))).
Proof.
  intros text flags safe I. unfold grep_examples in I. cbn [In] in I.
  repeat (destruct I as [E|I]; [injection E as <- <- <-|]); try destruct I.
  all: eexists; split; [vm_compute; reflexivity|]; cbv zeta; (split; [split; reflexivity|]); (split; [now apply filter_civ_reads|]); (split; [now apply filter_civ_tight|]);
    (split; [intros (n & J & U); apply uses_in in U; cbn in J, U; intuition subst; discriminate|]);
    (split; [intros p I; eapply offered_first; [vm_compute; reflexivity|exact I]|]); intros s; unfold grep_safe, before, after; cbn.
  all: intuition discriminate.
Qed.

(** ** C50 *)
(** sort is parallelized soundly, for every way to compare keys that depends on chance only
    where it should, exactly if this holds: *)
Theorem C50_sort_iff : forall text inv p c v dir,
  parse shipped_dir text = Ok inv -> cmd_name inv = "sort" -> offered shipped_dir inv p ->
  invocation_of inv c -> reads_one c v -> tight c -> ~ uses inv "-o" ->
  (forall B o, is_sort o B -> sort_oracle_ok o -> fair o -> parallel_ok B dir p c v (fun n => n = 2) (fun _ => True)) <->
  ~ uses_any inv ["--help"; "--version"; "--debug"] /\ forall s, random_order (map (wflag_of c s) (v_flags c)) = false.
Proof.
  intros text inv p c v dir PA C OF IN R T NO. split.
  - intros H.
    assert (W : forall s, given (map (wflag_of c s) (v_flags c)) ["--help"; "--version"] = true \/ given (map (wflag_of c s) (v_flags c)) ["--debug"] = true \/
      random_order (map (wflag_of c s) (v_flags c)) = true -> False).
    { intros s BAD. eapply ok_not_wrong; [|apply (H flip_system flip_sort flip_is_sort flip_sort_ok flip_fair)|eapply sort_wrong; eauto]. auto. }
    split.
    + intros (n & I & Us). apply (W (fun _ => "")). destruct I as [<-|[<-|[<-|[]]]].
      * left. apply (given_uses inv); [exact IN|]. exists "--help". split; [now left|exact Us].
      * left. apply (given_uses inv); [exact IN|]. exists "--version". split; [right; now left|exact Us].
      * right. left. apply (given_uses inv); [exact IN|]. exists "--debug". split; [now left|exact Us].
    + intros s. apply not_true_is_false. intros Y. apply (W s). auto.
  - intros (NU & RO) B o SB OK FA. eapply C50_sort_partial; eauto.
    intros (n & I & Us). cbn in I. destruct I as [<-|[<-|[<-|[<-|[]]]]]; try contradiction; apply NU; eexists; (split; [|exact Us]); cbn; tauto.
Qed.
Print Assumptions C50_sort_iff.
(** Otherwise some plan with merges of two prints what sort never prints, whatever it draws. *)
Theorem C50_sort_wrong : forall text inv p c v dir s,
  parse shipped_dir text = Ok inv -> cmd_name inv = "sort" -> offered shipped_dir inv p ->
  invocation_of inv c -> reads_one c v -> tight c ->
  uses_any inv ["--help"; "--version"; "--debug"] \/ random_order (map (wflag_of c s) (v_flags c)) = true ->
  exists B o, is_sort o B /\ sort_oracle_ok o /\ fair o /\ parallel_wrong B dir p c v (fun n => n = 2) (fun _ => True).
Proof.
  intros text inv p c v dir s PA C OF IN R T BAD. exists flip_system, flip_sort.
  split; [exact flip_is_sort|]. split; [exact flip_sort_ok|]. split; [exact flip_fair|]. apply sort_wrong with (text := text) (inv := inv) (s := s); auto.
  destruct BAD as [(n & I & Us)|Y]; [|auto]. destruct I as [<-|[<-|[<-|[]]]].
  - left. apply (given_uses inv); [exact IN|]. exists "--help". split; [now left|exact Us].
  - left. apply (given_uses inv); [exact IN|]. exists "--version". split; [right; now left|exact Us].
  - right. left. apply (given_uses inv); [exact IN|]. exists "--debug". split; [now left|exact Us].
Qed.
Print Assumptions C50_sort_wrong.
Example C50_sort_iff_case : exists inv, parse shipped_dir "sort -t : -k 2 -u" = Ok inv /\ (forall p, ~ offered shipped_dir inv p) /\
  exists inv', parse shipped_dir "sort -t : -k 2R" = Ok inv' /\ offered shipped_dir inv' (chunks sort_merge) /\
  let c := filter_civ "sort" [FOptIO "-t" (PArg ":"); FOptIO "-k" (PArg "2R")] [] in
  invocation_of inv' c /\ reads_one c 1 /\ tight c /\ ~ uses inv' "-o" /\ random_order (map (wflag_of c (fun _ => "")) (v_flags c)) = true.
Proof.
  eexists. split; [vm_compute; reflexivity|]. split.
  - intros p O. apply sort_parallelizers in O as (U & _); [|reflexivity]. apply U. exists "-u". split; [cbn; tauto|]. apply uses_in. cbn. tauto.
  - eexists. split; [vm_compute; reflexivity|]. split; [eapply offered_first; [vm_compute; reflexivity|now left]|]. cbv zeta.
    split; [split; reflexivity|]. split; [now apply filter_civ_reads|]. split; [now apply filter_civ_tight|]. split; [|reflexivity].
    intros U. apply uses_in in U. cbn in U. intuition discriminate.
Qed.
