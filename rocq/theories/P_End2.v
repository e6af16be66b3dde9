(** * From sed with one command at some address to sound plans (C73) *)
From Coq Require Import Lia.
Require Import Verif.PyBase Verif.JsonData Verif.Parser Verif.Access Verif.IOInfo Verif.IOGen Verif.IOVars
  Verif.Transformers Verif.ParaTypes Verif.ParaGen Verif.MapperAgg Verif.SpecLists Verif.SpecParser Verif.SpecIO Verif.SpecVars Verif.SpecPara
  Verif.ParserFacts Verif.ParaProps Verif.ShippedData Verif.P_IO Verif.P_Para Verif.SpecSem Verif.SemFacts Verif.SemRun Verif.SemProps Verif.SemSystem
  Verif.SpecSem2 Verif.SpecSem8 Verif.SpecSem12 Verif.P_Sem Verif.P_Sem2 Verif.P_Sem8 Verif.P_Sem12 Verif.SpecEnd Verif.EndFacts Verif.P_End.

Lemma sed_words text inv a c s : parse shipped_dir text = Ok inv -> with_io shipped_dir inv a -> numbered a c -> cmd_name inv = "sed" ->
  ~ uses_any inv sed_others -> map (wflag_of c s) (v_flags c) = as_words inv.
Proof.
  intros PA WI N C U.
  assert (X : seen_as (map fo_name (flag_option_list inv)) inv (map (wflag_of c s) (v_flags c))).
  { eapply (seen text inv a c s "sed"); eauto. eexists. split; [left; vm_compute; reflexivity|].
    match goal with |- forallb _ ?l = true => let l' := eval vm_compute in l in change l with l' end.
    apply forallb_forall. intros n I. apply negb_true_iff. destruct (mem n (map fo_name (flag_option_list inv))) eqn:M; [|reflexivity]. exfalso.
    apply mem_In, in_map_iff in M as (fo & E & J). apply U. exists n. split; [unfold sed_others; cbn in *; intuition|now exists fo]. }
  unfold seen_as in X. unfold as_words. revert X. generalize (map (wflag_of c s) (v_flags c)) as fl.
  assert (G : forall fos names fl, (forall fo, In fo fos -> In (fo_name fo) names) ->
    Forall2 (fun fo f => wflag_name f = fo_name fo /\ (In (fo_name fo) names -> f = as_word fo)) fos fl -> fl = map as_word fos).
  { intros fos names fl SUB F. induction F as [|fo f fos fl (_ & H) F IH]; [reflexivity|]. cbn. rewrite (H (SUB fo (or_introl eq_refl))), IH; [reflexivity|].
    intros x I. apply SUB. now right. }
  intros fl X. apply (G _ _ _ (fun fo I => in_map fo_name _ fo I) X).
Qed.
(** For scripts of one command that concerns single lines the condition is exact: whatever regular
    expressions mean, the plans are right iff the address tells by the line, or the command makes no
    difference for any line. *)
Theorem C73_sed_one : forall text inv p a c v reads o dir script_text w neg k,
  parse shipped_dir text = Ok inv -> cmd_name inv = "sed" -> offered shipped_dir inv p ->
  with_io shipped_dir inv a -> numbered a c -> streams_in c v ->
  operand_list inv = [script_text] -> reads script_text = Some [mkSedLine w neg k] -> (forall t sc, reads t = Some sc -> forward sc) ->
  line_command k -> proper w -> ~ uses_any inv sed_others ->
  (forall B o', same_commands o o' -> is_sed_full reads o' B -> is_cat B -> parallel_ok B dir p c v (fun n => n <> 0) (fun _ => True)) <->
  by_line w = true \/ forall x, has_char newline x = false -> no_difference o (as_words inv) k x.
Proof.
  intros text inv p a c v reads o dir script_text w neg k PA C OF WI N S OPS RS FW LC PR U. destruct (C73_lines text inv a c PA WI N) as (IN & T & _).
  assert (NE : ~ uses inv "-e" /\ ~ uses inv "-f").
  { split; intros X; apply U; eexists; (split; [|exact X]); unfold sed_others; cbn; auto. }
  assert (L : one_stream_line inv) by (unfold one_stream_line; rewrite C, OPS; cbn; tauto).
  assert (W : io_operand_list a = [ArgString script_text]).
  { apply C21_sed in WI as (xs & [(X & _)|(_ & s & l & E & ->)] & (_ & _ & ->) & _); [tauto| |exact C]. rewrite OPS in E. now injection E as <- <-. }
  assert (V : v_ops c = [PArg script_text]).
  { pose proof N as (_ & _ & NO & _). rewrite W in NO. inversion NO as [|x y xs ys ST NO']; subst. cbn in ST. inversion NO'. now subst. }
  assert (R : reads_one c v) by now apply (C73_input text inv a c PA WI N L).
  rewrite (C59_one_iff text inv p c v reads o dir script_text [] w neg k PA C OF IN R T V RS FW LC PR U).
  assert (E : forall s, map (wflag_of c s) (v_flags c) = as_words inv) by (intros s; eapply sed_words; eauto).
  split.
  - intros H. destruct (by_line w); [now left|right]. intros x CL. rewrite <- (E (fun _ => "")). now apply H.
  - intros [H|H] BL s x CL; [congruence|]. rewrite E. now apply H.
Qed.
Print Assumptions C73_sed_one.
Example C73_sed_one_case : forall p a c v inv,
  (parse shipped_dir "sed -n '2,$p'" = Ok inv -> offered shipped_dir inv p -> with_io shipped_dir inv a -> numbered a c -> streams_in c v ->
   let reads := fun t => if String.eqb t "2,$p" then Some (sc1 (Range (PtLine 2) PtLast) false APrint) else None in
   ~ forall B o', same_commands simple_meaning o' -> is_sed_full reads o' B -> is_cat B -> parallel_ok B shipped_dir p c v (fun n => n <> 0) (fun _ => True)) /\
  (parse shipped_dir "sed '1,$y/a/b/'" = Ok inv -> offered shipped_dir inv p -> with_io shipped_dir inv a -> numbered a c -> streams_in c v ->
   let reads := fun t => if String.eqb t "1,$y/a/b/" then Some (sc1 (Range (PtLine 1) PtLast) false (ATranslit "a" "b")) else None in
   forall B o', same_commands simple_meaning o' -> is_sed_full reads o' B -> is_cat B -> parallel_ok B shipped_dir p c v (fun n => n <> 0) (fun _ => True)).
Proof.
  assert (F1 : forall w neg k t' t sc, line_command k -> (if String.eqb t t' then Some (sc1 w neg k) else None) = Some sc -> forward sc).
  { intros w neg k t' t sc LC. destruct (String.eqb t t'); [intros [= <-]; now apply one_forward|discriminate]. }
  intros p a c v inv. split; intros PA OF WI N S reads; pose proof PA as P'; vm_compute in P'; injection P' as <-.
  - rewrite (C73_sed_one _ _ p a c v reads simple_meaning shipped_dir "2,$p" (Range (PtLine 2) PtLast) false APrint PA eq_refl OF WI N S eq_refl eq_refl).
    + intros [H|H]; [discriminate|]. destruct (H "a" eq_refl) as (l & E & U). vm_compute in E. injection E as <-. vm_compute in U. discriminate.
    + intros t sc. apply F1. left. cbn; auto.
    + left. cbn; auto.
    + cbn. split; [|intros n]; discriminate.
    + intros (n & J & X). apply uses_in in X; cbn in J, X; intuition subst; discriminate.
  - rewrite (C73_sed_one _ _ p a c v reads simple_meaning shipped_dir "1,$y/a/b/" (Range (PtLine 1) PtLast) false (ATranslit "a" "b") PA eq_refl OF WI N S eq_refl eq_refl).
    + now left.
    + intros t sc. apply F1. right; right; left. eauto.
    + right; right; left. eauto.
    + cbn. split; [|intros n]; discriminate.
    + intros (n & J & X). apply uses_in in X; cbn in J, X; intuition subst; discriminate.
Qed.
(** Both lines are offered plans and can be numbered. *)
Example C73_sed_one_lines : forall text, In text ["sed -n '2,$p'"; "sed '1,$y/a/b/'"] -> exists inv p a c v, parse shipped_dir text = Ok inv /\ offered shipped_dir inv p /\
  with_io shipped_dir inv a /\ numbered a c /\ streams_in c v.
Proof.
  assert (G : forall text inv i p l, parse shipped_dir text = Ok inv -> get_parallelizability_info shipped_dir inv = Some i ->
    parallelizer_list i = p :: l -> (exists a, with_io shipped_dir inv a) -> one_stream_line inv ->
    exists inv p a c v, parse shipped_dir text = Ok inv /\ offered shipped_dir inv p /\ with_io shipped_dir inv a /\ numbered a c /\ streams_in c v).
  { intros text inv i p l PA GI PL (a & WI) L. destruct (C73_numbering_exists a) as (c & N).
    destruct (C73_input text inv a c PA WI N L) as ((v & V & _) & _). exists inv, p, a, c, v.
    split; [exact PA|]. split; [eapply offered_first; [exact GI|rewrite PL; now left]|]. auto. }
  intros text I. cbn in I. repeat (destruct I as [<-|I]; [eapply G; [vm_compute; reflexivity|vm_compute; reflexivity|cbn; reflexivity|eexists; eexists; split; vm_compute; reflexivity|]|]); [..|destruct I].
  all: unfold one_stream_line; cbn.
  all: assert (IFF : forall i n, uses i n <-> In n (map fo_name (flag_option_list i))) by
    (intros i n; unfold uses; rewrite in_map_iff; split; intros (x & A & B); eauto).
  all: rewrite !IFF; clear; cbn; intuition (try discriminate; try lia).
Qed.
