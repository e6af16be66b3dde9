(** * Theorems about commands that print the names of their files (C88) *)
From Coq Require Import Lia.
Require Import Verif.PyBase Verif.JsonData Verif.Parser Verif.ShippedData Verif.Access Verif.IOInfo Verif.IOVars
  Verif.Transformers Verif.ParaTypes Verif.ParaGen Verif.MapperAgg Verif.SpecLists Verif.SpecIO Verif.SpecVars Verif.SpecPara Verif.SpecMapper
  Verif.ListFacts Verif.ParserFacts Verif.IOVarsFacts Verif.P_Para Verif.SpecSem Verif.SemFacts Verif.SemRun Verif.SemProps Verif.SemSystem Verif.P_Sem Verif.SpecSem4 Verif.SpecSem6 Verif.P_Sem6
  Verif.SpecNames Verif.NamesFacts.

(** ** Any command that is offered the concatenation *)
Lemma named_iff dir inv p c i B Q dir' : offered dir inv p -> p_aggregator p = SpecPara.concat -> reads_one c i -> tight c -> is_ncat B -> tail_closed Q ->
  named_ok B dir' p c i Q <-> any_names B c i Q.
Proof.
  intros O A R T CB QC. apply C68_concat_offered in O as (I & _); [|exact A]. split; [now apply named_complete|now apply named_sound].
Qed.
Lemma operand_iff c i : is_operand c i = true <-> In (PVar i) (v_ops c).
Proof.
  unfold is_operand. rewrite existsb_exists. split.
  - intros (x & I & E). destruct x; try discriminate. apply Z.eqb_eq in E as ->. exact I.
  - intros I. exists (PVar i). split; [exact I|apply Z.eqb_refl].
Qed.
(** If the input is a file given as an operand, the plans print what the command prints, whatever the files
    are called, exactly if they would if names could not be seen and moreover the name does not matter. *)
Theorem C88_operand_iff : forall dir inv p c i B Q dir',
  offered dir inv p -> p_aggregator p = SpecPara.concat -> reads_one c i -> tight c -> is_ncat B -> tail_closed Q ->
  In (PVar i) (v_ops c) ->
  named_ok B dir' p c i Q <-> nameless B c i Q /\ npiecewise B c i Q.
Proof.
  intros dir inv p c i B Q dir' O A R T CB QC IO. rewrite (named_iff dir inv p c i B Q dir' O A R T CB QC).
  apply operand_iff in IO. assert (LA : forall n, label c i n = Some n) by (intros; unfold label; now rewrite IO). split.
  - intros H. split.
    + intros names name s seed HQ. rewrite !(nrun_original B _ _ c i s R). unfold put at 1. rewrite Z.eqb_refl.
      assert (E : forall sd sd1 sd2 n n1 n2, nout B c s sd (label c i n) (s i) = nout B c s sd1 (label c i n1) "" +++ nout B c s sd2 (label c i n2) (s i))
        by (intros; apply (H _ _ _ _ _ _ _ ""); [now left|exact HQ]).
      pose proof (E seed 0 seed name "" (names i)) as E1. pose proof (E seed 0 seed (names i) "" name) as E2.
      apply (f_equal String.length) in E2. rewrite E1, !append_length in E2. destruct (nout B c s 0 (label c i "") ""); [exact E1|cbn in E2; lia].
    + intros names s seed seed1 seed2 a b EA HQ. rewrite !(nput B _ _ c i s _ R). now apply H.
  - intros (N & P) s sd sd1 sd2 n n1 n2 a b EA HQ.
    assert (NP : forall x, Q x -> forall sd n n', nout B c s sd (label c i n) x = nout B c s sd (label c i n') x).
    { intros x Qx sd0 m m'. assert (Px : put i x s i = x) by (unfold put; now rewrite Z.eqb_refl).
      pose proof (N (fun _ => m') m (put i x s) sd0) as E. rewrite Px in E. specialize (E Qx). rewrite !(nput B _ _ c i s _ R) in E.
      unfold put in E. rewrite Z.eqb_refl in E. exact E. }
    pose proof (P (fun _ => n1) s sd sd1 sd2 a b EA HQ) as E1.
    rewrite !(nput B _ _ c i s _ R) in E1. rewrite (NP _ HQ sd n n1), E1.
    f_equal. apply NP. exact (QC a b EA HQ).
Qed.
Print Assumptions C88_operand_iff.
(** If it is standard input, names do not come into it. *)
Theorem C88_stdin_iff : forall dir inv p c i B Q dir',
  offered dir inv p -> p_aggregator p = SpecPara.concat -> reads_one c i -> tight c -> is_ncat B -> tail_closed Q ->
  ~ In (PVar i) (v_ops c) ->
  named_ok B dir' p c i Q <-> npiecewise B c i Q.
Proof.
  intros dir inv p c i B Q dir' O A R T CB QC IO. rewrite (named_iff dir inv p c i B Q dir' O A R T CB QC).
  assert (NO : is_operand c i = false) by (apply not_true_is_false; now rewrite operand_iff).
  assert (LA : forall n, label c i n = None) by (intros; unfold label; now rewrite NO). split.
  - intros H names s seed seed1 seed2 a b EA HQ. rewrite !(nput B _ _ c i s _ R). now apply H.
  - intros P s sd sd1 sd2 n n1 n2 a b EA HQ. pose proof (P (fun _ => n) s sd sd1 sd2 a b EA HQ) as E. rewrite !(nput B _ _ c i s _ R) in E.
    rewrite !LA in *. exact E.
Qed.
Print Assumptions C88_stdin_iff.

(** ** grep -H *)
Lemma seen_plain inv c s : invocation_of inv c -> Forall (fun fo => In (fo_name fo) grep_plain_flags) (flag_option_list inv) ->
  known grep_plain_flags (map (wflag_of c s) (v_flags c)).
Proof.
  intros (_ & I) F. unfold known. apply Forall_forall. intros f J.
  assert (E : map wflag_name (map (wflag_of c s) (v_flags c)) = map fo_name (flag_option_list inv)).
  { rewrite <- I, map_map. apply map_ext. intros []; reflexivity. }
  assert (J' : In (wflag_name f) (map fo_name (flag_option_list inv))) by (rewrite <- E; now apply in_map).
  apply in_map_iff in J' as (fo & <- & J'). rewrite Forall_forall in F. now apply F.
Qed.
Lemma seen_flag inv c s n : invocation_of inv c -> given (map (wflag_of c s) (v_flags c)) [n] = true <-> uses inv n.
Proof.
  intros (_ & I). assert (E : map wflag_name (map (wflag_of c s) (v_flags c)) = map fo_name (flag_option_list inv)).
  { rewrite <- I, map_map. apply map_ext. intros []; reflexivity. }
  unfold given. rewrite existsb_exists. split.
  - intros (f & J & M). apply mem_In in M as [M|[]]. assert (K : In n (map fo_name (flag_option_list inv))) by (rewrite <- E, M; now apply in_map).
    apply in_map_iff in K as (fo & K1 & K2). exists fo. auto.
  - intros (fo & K1 & K2). assert (K : In n (map wflag_name (map (wflag_of c s) (v_flags c)))) by (rewrite E, <- K2; now apply in_map).
    apply in_map_iff in K as (f & K3 & K4). exists f. split; [exact K4|]. apply mem_In. left. now symmetry.
Qed.
Lemma clean_prefix n l : has_char newline n = false -> has_char newline l = false -> has_char newline (n +++ ":" +++ l) = false.
Proof. intros A B. rewrite !has_char_app, A, B. reflexivity. Qed.
Lemma unlines_same l l' : Forall (fun r => has_char newline r = false) l -> Forall (fun r => has_char newline r = false) l' -> unlines l = unlines l' -> l = l'.
Proof. intros A B E. rewrite <- (records_terminated newline l A), <- (records_terminated newline l' B). unfold unlines in E. now rewrite E. Qed.

(** The lines grep selects in a text *)
Definition picked (o : grep_oracle) (c : civ) (s : store) (x : string) : list string :=
  filter (selected o (map (wflag_of c s) (v_flags c)) (map (word_of c s) (v_ops c))) (lines x).
Section GrepH.
  Variables (inv : invocation) (p : parallelizer) (c : civ) (i : Z) (B : nbehaviour) (o : grep_oracle) (dir' : data_dir).
  Hypothesis C : cmd_name inv = "grep".
  Hypothesis F : Forall (fun fo => In (fo_name fo) grep_plain_flags) (flag_option_list inv).
  Hypothesis IN : invocation_of inv c.
  Hypothesis R : reads_one c i.
  Hypothesis GB : is_ngrep o B.
  Definition texts (x : string) : Prop := is_text x \/ uses inv "-a".
  Lemma grep_nout s sd n x : texts x -> nout B c s sd n x =
    unlines (map (fun l => if given (map (wflag_of c s) (v_flags c)) ["-H"] then shown_name n +++ ":" +++ l else l) (picked o c s x)).
  Proof.
    intros TX. unfold nout. rewrite (proj1 IN), C, GB; [reflexivity|now apply (seen_plain inv)|]. destruct TX; [now left|right; now apply (seen_flag inv)].
  Qed.
  Lemma texts_parts l : texts (joined l) -> Forall texts l.
  Proof.
    induction l as [|x l IH]; intros [T|T]; constructor; try (right; exact T); try (apply IH; right; exact T); cbn in T; unfold is_text in T; rewrite has_char_app in T;
      apply orb_false_iff in T as (T1 & T2); [now left|apply IH; now left].
  Qed.
  Lemma picked_clean s x : Forall (fun r => has_char newline r = false) (picked o c s x).
  Proof.
    apply Forall_forall. intros l I. apply filter_In in I as (I & _). pose proof (records_clean newline x) as K. rewrite Forall_forall in K. now apply K.
  Qed.
  Hypothesis I : In p (stateless SpecPara.concat).
  Hypothesis CB : is_ncat B.
  Lemma grep_plan names s t : Forall texts (map s (parts t)) -> fresh_plan c t -> arity (fun n => n <> 0) t ->
    nevaluates B names dir' p c s t (joined (map (fun v => nout B c s 0 (label c i (names v)) (s v)) (parts t))).
  Proof.
    intros TX FR AR. assert (M : p_mapper p = seq_mapper /\ p_info_mapper_aggregator p = 0 /\ p_aggregator p = SpecPara.concat) by (destruct I as [<-|[<-|[]]]; auto).
    destruct M as (M1 & M2 & M3). pose proof (nconcat_leaves B names dir' p c i s R M1 M2 M3 CB t FR AR) as EV.
    replace (map (fun v => nout B c s 0 (label c i (names v)) (s v)) (parts t)) with
      (nleaves (fun sd n x => nout B c s sd (label c i n) x) names s t); [exact EV|].
    clear -C F IN GB TX. induction t as [x y seed|q seed ts IH] using plan_rect'; [inversion TX; cbn; now rewrite !grep_nout|].
    cbn [nleaves parts] in *. induction IH as [|t ts H _ IHts]; [reflexivity|]. cbn [flat_map] in *. rewrite map_app in *. apply Forall_app in TX as (TX1 & TX2).
    now rewrite H, IHts.
  Qed.
  Lemma picked_cut s t : distributes (p_splitter p) (s i) (map s (parts t)) -> picked o c s (s i) = flat_map (fun v => picked o c s (s v)) (parts t).
  Proof.
    intros DI. assert (CU : cut_at_lines (s i) (map s (parts t))) by (destruct I as [<-|[<-|[]]]; exact DI).
    unfold picked. rewrite (cut_lines _ _ CU). generalize (parts t) as l. clear. induction l as [|v l IH]; [reflexivity|].
    cbn [map flat_map]. now rewrite filter_app, IH.
  Qed.
  Lemma plan_text names s t : Forall texts (map s (parts t)) -> uses inv "-H" -> is_operand c i = true ->
    joined (map (fun v => nout B c s 0 (label c i (names v)) (s v)) (parts t)) =
    unlines (flat_map (fun v => map (fun l => names v +++ ":" +++ l) (picked o c s (s v))) (parts t)).
  Proof.
    intros TX U OP. assert (H : given (map (wflag_of c s) (v_flags c)) ["-H"] = true) by (now apply (seen_flag inv)).
    unfold unlines. rewrite terminated_flat_map. f_equal. apply map_ext_in. intros v J. rewrite grep_nout, H; [unfold label; now rewrite OP|].
    rewrite Forall_forall in TX. apply TX. now apply in_map.
  Qed.
End GrepH.
Lemma app_inj_len {A} (a b c d : list A) : length a = length b -> a ++ c = b ++ d -> a = b /\ c = d.
Proof.
  revert b. induction a as [|x a IH]; intros [|y b] L E; try discriminate; [auto|]. cbn in *. injection E as -> E. injection L as L.
  destruct (IH b L E) as (-> & ->). auto.
Qed.
Lemma same_prefix (G : Z -> list string) (names : naming) n l :
  flat_map (fun v => map (fun x => names v +++ ":" +++ x) (G v)) l = map (fun x => n +++ ":" +++ x) (flat_map G l) <->
  forall v, In v l -> G v <> [] -> names v = n.
Proof.
  induction l as [|v l IH]; [split; [intros _ v []|reflexivity]|]. cbn [flat_map]. rewrite map_app. split.
  - intros E. apply app_inj_len in E as (E1 & E2); [|now rewrite !map_length]. intros w [<-|J] N; [|now apply IH].
    destruct (G v) as [|x g]; [now destruct N|]. cbn in E1. injection E1 as E1 _. now apply append_cancel in E1.
  - intros H. f_equal; [|apply IH; intros w J; apply H; now right].
    destruct (G v) as [|x g] eqn:E; [reflexivity|]. rewrite (H v (or_introl eq_refl)); [reflexivity|]. now rewrite E.
Qed.

(** With a file as operand: a plan prints what grep -H prints exactly if every part of which a line is
    selected is called like the file. *)
Theorem C88_grep_H_iff : forall inv p c i B o dir' names s t seed,
  cmd_name inv = "grep" -> Forall (fun fo => In (fo_name fo) grep_plain_flags) (flag_option_list inv) -> uses inv "-H" ->
  offered shipped_dir inv p -> invocation_of inv c -> reads_one c i -> In (PVar i) (v_ops c) -> is_ngrep o B -> is_ncat B ->
  fresh_plan c t -> arity (fun n => n <> 0) t -> distributes (p_splitter p) (s i) (map s (parts t)) ->
  is_text (s i) \/ uses inv "-a" -> (forall v, has_char newline (names v) = false) ->
  nevaluates B names dir' p c s t (nrun B names seed c s) <->
  forall v, In v (parts t) -> picked o c s (s v) <> [] -> names v = names i.
Proof.
  intros inv p c i B o dir' names s t seed C F U O IN R IO GB CB FR AR DI TX NL. apply operand_iff in IO.
  assert (I : In p (stateless SpecPara.concat)) by (apply (stateless_of inv); [exact O|rewrite C; cbn; auto]).
  assert (CU : cut_at_lines (s i) (map s (parts t))) by (destruct I as [<-|[<-|[]]]; exact DI).
  assert (TP : Forall (texts inv) (map s (parts t))) by (apply (texts_parts inv); rewrite <- (proj1 CU); exact TX).
  pose proof (grep_plan inv p c i B o dir' C F IN R GB I CB names s t TP FR AR) as EV.
  rewrite (plan_text inv c i B o C F IN GB names s t TP U IO) in EV.
  rewrite (nrun_original B names seed c i s R), (grep_nout inv c B o C F IN GB _ _ _ _ TX).
  assert (H : given (map (wflag_of c s) (v_flags c)) ["-H"] = true) by (now apply (seen_flag inv)). rewrite H.
  unfold label. rewrite IO. cbn [shown_name]. rewrite (picked_cut p c i o I s t DI).
  rewrite <- (same_prefix (fun v => picked o c s (s v)) names (names i) (parts t)). split.
  - intros EV'. pose proof (neval_once _ _ _ _ _ _ _ _ _ EV EV') as E. apply unlines_same in E; [exact E| |].
    + apply Forall_flat_map, Forall_forall. intros v _. apply Forall_map. eapply Forall_impl; [|apply picked_clean]. intros l. now apply clean_prefix.
    + apply Forall_map, Forall_flat_map, Forall_forall. intros v _. eapply Forall_impl; [|apply picked_clean]. intros l. now apply clean_prefix.
  - intros E. rewrite E in EV. exact EV.
Qed.
Print Assumptions C88_grep_H_iff.
(** So it is wrong whenever no part is called like the file and there is a line to print. *)
Theorem C88_grep_H_refuted : forall inv p c i B o dir' names s t seed,
  cmd_name inv = "grep" -> Forall (fun fo => In (fo_name fo) grep_plain_flags) (flag_option_list inv) -> uses inv "-H" ->
  offered shipped_dir inv p -> invocation_of inv c -> reads_one c i -> In (PVar i) (v_ops c) -> is_ngrep o B -> is_ncat B ->
  fresh_plan c t -> arity (fun n => n <> 0) t -> distributes (p_splitter p) (s i) (map s (parts t)) ->
  is_text (s i) \/ uses inv "-a" -> (forall v, has_char newline (names v) = false) ->
  (forall v, In v (parts t) -> names v <> names i) -> picked o c s (s i) <> [] ->
  ~ nevaluates B names dir' p c s t (nrun B names seed c s).
Proof.
  intros inv p c i B o dir' names s t seed C F U O IN R IO GB CB FR AR DI TX NL DN PK EV.
  rewrite (C88_grep_H_iff inv p c i B o dir' names s t seed C F U O IN R IO GB CB FR AR DI TX NL) in EV.
  apply PK. rewrite (picked_cut p c i o) with (t := t); [|apply (stateless_of inv); [exact O|rewrite C; cbn; auto]|exact DI].
  assert (K : forall v, In v (parts t) -> picked o c s (s v) = []).
  { intros v J. destruct (picked o c s (s v)) as [|l r] eqn:E; [reflexivity|]. exfalso. apply (DN v J). apply EV; [exact J|]. now rewrite E. }
  clear -K. induction (parts t) as [|v l IH]; [reflexivity|]. cbn [flat_map]. rewrite K by now left. apply IH. intros w J. apply K. now right.
Qed.
Print Assumptions C88_grep_H_refuted.
(** Without -H, or on standard input, it is right whatever the files are called. *)
Theorem C88_grep_right : forall inv p c i B o dir',
  cmd_name inv = "grep" -> Forall (fun fo => In (fo_name fo) grep_plain_flags) (flag_option_list inv) ->
  offered shipped_dir inv p -> invocation_of inv c -> reads_one c i -> is_ngrep o B -> is_ncat B ->
  ~ uses inv "-H" \/ ~ In (PVar i) (v_ops c) ->
  named_ok B dir' p c i (fun input => is_text input \/ uses inv "-a").
Proof.
  intros inv p c i B o dir' C F O IN R GB CB NH. apply named_sound; [exact R|apply (stateless_of inv); [exact O|rewrite C; cbn; auto]|exact CB| |].
  - intros a b _ [H|H]; [left|now right]. unfold is_text in *. rewrite has_char_app in H. now apply orb_false_iff in H.
  - intros s sd sd1 sd2 n n1 n2 a b EA TX.
    assert (TT : texts inv a /\ texts inv b).
    { destruct TX as [H|H]; [|split; now right]. unfold is_text in H. rewrite has_char_app in H. apply orb_false_iff in H as (H1 & H2). split; now left. }
    destruct TT as (TA & TB). rewrite !(grep_nout inv c B o C F IN GB) by assumption.
    unfold picked, lines. rewrite (records_app newline a b EA), filter_app, map_app. unfold unlines. rewrite terminated_app.
    destruct (given (map (wflag_of c s) (v_flags c)) ["-H"]) eqn:H; [|reflexivity].
    assert (NO : is_operand c i = false).
    { apply not_true_is_false. rewrite operand_iff. destruct NH as [NH|NH]; [|exact NH]. exfalso. apply NH. now apply (seen_flag inv c s). }
    unfold label. now rewrite NO.
Qed.
Print Assumptions C88_grep_right.
(** Cases: grep -H on a file, cut into two parts *)
Definition simple_named : nbehaviour := fun _ cmd fl ops inputs =>
  if String.eqb cmd "grep" then
    unlines (flat_map (fun e => map (fun l => if given fl ["-H"] then shown_name (fst e) +++ ":" +++ l else l) (filter (selected simple_grep fl ops) (lines (snd e)))) inputs)
  else joined (map snd inputs).
Lemma simple_is_ncat : is_ncat simple_named.
Proof. intros seed ops inputs _. reflexivity. Qed.
Lemma simple_is_ngrep : is_ngrep simple_grep simple_named.
Proof. intros seed fl ops n input _ _. unfold simple_named. cbn [String.eqb Ascii.eqb Bool.eqb flat_map fst snd]. now rewrite app_nil_r. Qed.
Definition grep_file (ops : list pyval) (inp : pyval) : civ :=
  mkCiv "grep" [FFlag "-H"] ops inp (PVar 2) (am_set (am_set am_empty 1 STREAM_INPUT) 2 STREAM_OUTPUT).
Definition on_file : civ := grep_file [PArg "a"; PVar 1] PNone.
Definition on_stdin : civ := grep_file [PArg "a"] (PVar 1).
Lemma grep_file_reads c : In c [on_file; on_stdin] -> reads_one c 1 /\ tight c.
Proof.
  intros I.
  assert (V : vars c = [1; 2]%Z) by (destruct I as [<-|[<-|[]]]; vm_compute; reflexivity).
  assert (A : v_acc c = am_set (am_set am_empty 1 STREAM_INPUT) 2 STREAM_OUTPUT) by (destruct I as [<-|[<-|[]]]; reflexivity).
  assert (T : tight c).
  { split; [split|]; rewrite V, ?A.
    - repeat constructor; cbn; lia.
    - intros v [<-|[<-|[]]]; discriminate.
    - intros v. cbn. unfold am_set, am_empty. destruct (Z.eqb_spec v 2), (Z.eqb_spec v 1); subst; auto. }
  split; [|exact T]. split; [apply T|]. rewrite V. unfold with_access. rewrite A. split; [|split; [|split]].
  - apply kept_yes; [reflexivity|]. apply kept_no; [discriminate|constructor].
  - exists 2%Z. split; [destruct I as [<-|[<-|[]]]; reflexivity|]. apply kept_no; [discriminate|]. apply kept_yes; [reflexivity|constructor].
  - intros x J. destruct I as [<-|[<-|[]]]; destruct J.
  - intros n a J. destruct I as [<-|[<-|[]]]; destruct J as [J|[]]; discriminate.
Qed.
Definition two_parts : plan := Node 7 0 [Leaf 3 5 0; Leaf 4 6 0].
Definition two_texts : store := connect [1; 3; 4]%Z ["a
ba
"; "a
"; "ba
"] (fun _ => "").
Definition two_names : naming := connect [1; 3; 4]%Z ["f"; "part1"; "part2"] (fun _ => "").
Example C88_case : exists inv, parse shipped_dir "grep -H a f" = Ok inv /\ offered shipped_dir inv (chunks SpecPara.concat) /\ invocation_of inv on_file /\
  nrun simple_named two_names 0 on_file two_texts = "f:a
f:ba
" /\
  nevaluates simple_named two_names shipped_dir (chunks SpecPara.concat) on_file two_texts two_parts "part1:a
part2:ba
" /\
  ~ nevaluates simple_named two_names shipped_dir (chunks SpecPara.concat) on_file two_texts two_parts (nrun simple_named two_names 0 on_file two_texts).
Proof.
  assert (P : parse shipped_dir "grep -H a f" = Ok (mkInv "grep" [Flag "-H"] ["a"; "f"])) by (vm_compute; reflexivity).
  eexists. split; [exact P|].
  assert (O : offered shipped_dir (mkInv "grep" [Flag "-H"] ["a"; "f"]) (chunks SpecPara.concat)) by (eapply offered_first; [vm_compute; reflexivity|now left]).
  destruct (grep_file_reads on_file (or_introl eq_refl)) as (R & T).
  assert (IN : invocation_of (mkInv "grep" [Flag "-H"] ["a"; "f"]) on_file) by (split; reflexivity).
  assert (FR : fresh_plan on_file two_parts).
  { split; [cbn; repeat constructor; cbn; lia|]. intros v J. assert (V : vars on_file = [1; 2]%Z) by (vm_compute; reflexivity). rewrite V.
    cbn in J. split; [|cbn; lia]. cbn. unfold am_set, am_empty. destruct (Z.eqb_spec v 2), (Z.eqb_spec v 1); subst; lia || reflexivity. }
  assert (AR : arity (fun n => n <> 0) two_parts) by (cbn; auto).
  assert (F : Forall (fun fo => In (fo_name fo) grep_plain_flags) (flag_option_list (mkInv "grep" [Flag "-H"] ["a"; "f"]))) by (repeat constructor).
  split; [exact O|]. split; [exact IN|]. split; [vm_compute; reflexivity|]. split.
  - pose proof (grep_plan (mkInv "grep" [Flag "-H"] ["a"; "f"]) (chunks SpecPara.concat) on_file 1 simple_named simple_grep shipped_dir eq_refl F IN R simple_is_ngrep
      (or_introl eq_refl) simple_is_ncat two_names two_texts two_parts) as EV.
    eapply eq_ind; [apply EV; [repeat constructor|exact FR|exact AR]|vm_compute; reflexivity].
  - apply (C88_grep_H_refuted (mkInv "grep" [Flag "-H"] ["a"; "f"]) _ on_file 1 simple_named simple_grep); auto using simple_is_ngrep, simple_is_ncat.
    + exists (Flag "-H"). split; [now left|reflexivity].
    + right. now left.
    + split; [reflexivity|]. constructor; [|constructor]. right. exists "a". reflexivity.
    + left. reflexivity.
    + intros v. unfold two_names, connect. cbn. repeat match goal with |- context [if ?b then _ else _] => destruct b; try reflexivity end.
    + intros v [<-|[<-|[]]]; discriminate.
    + vm_compute. discriminate.
Qed.
Example C88_stdin_case : exists inv, parse shipped_dir "grep -H a" = Ok inv /\ invocation_of inv on_stdin /\
  forall p, In p (stateless SpecPara.concat) -> named_ok simple_named shipped_dir p on_stdin 1 (fun input => is_text input \/ uses inv "-a").
Proof.
  assert (P : parse shipped_dir "grep -H a" = Ok (mkInv "grep" [Flag "-H"] ["a"])) by (vm_compute; reflexivity).
  eexists. split; [exact P|]. split; [split; reflexivity|]. intros p I.
  destruct (grep_file_reads on_stdin (or_intror (or_introl eq_refl))) as (R & T).
  eapply (C88_grep_right (mkInv "grep" [Flag "-H"] ["a"]) p on_stdin 1 simple_named simple_grep shipped_dir eq_refl).
  - repeat constructor.
  - eapply offered_first; [vm_compute; reflexivity|exact I].
  - split; reflexivity.
  - exact R.
  - exact simple_is_ngrep.
  - exact simple_is_ncat.
  - right. cbn. intuition discriminate.
Qed.
