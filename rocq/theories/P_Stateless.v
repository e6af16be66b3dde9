(** * C90: what the class stateless promises *)
From Coq Require Import Lia.
Require Import Verif.PyBase Verif.JsonData Verif.Parser Verif.Access Verif.IOInfo Verif.IOVars
  Verif.Transformers Verif.ParaTypes Verif.ParaGen Verif.MapperAgg Verif.SpecLists Verif.SpecVars Verif.SpecPara Verif.SpecMapper
  Verif.ListFacts Verif.IOVarsFacts Verif.IOVarsProps Verif.P_Mapper Verif.SpecHelpers
  Verif.SpecSem Verif.SemFacts Verif.SemRun Verif.SemProps Verif.SemProps2 Verif.SpecSem3 Verif.SpecSem4 Verif.SpecSem6 Verif.SpecSem10
  Verif.SpecIO Verif.ShippedData Verif.SpecOld Verif.OldFacts Verif.GenHelpers Verif.PipeFacts Verif.P_Sem Verif.P_Sem6 Verif.SemSystem Verif.P_Helpers
  Verif.SpecCustom Verif.CustomFacts Verif.P_Custom Verif.SpecStateless.

(** ** Line by line *)
Lemma full_ends x : Forall (fun l => exists t, l = t +++ String newline "") (removelast (full_lines x)).
Proof.
  induction x as [|a x IH]; [constructor|]. cbn [full_lines]. destruct (Ascii.eqb_spec a newline) as [->|].
  - destruct (full_lines x) as [|r rs] eqn:E; [constructor|]. rewrite removelast_cons by discriminate. constructor; [now exists ""|exact IH].
  - destruct (full_lines x) as [|r rs]; [constructor|]. destruct rs as [|r' rs]; [constructor|]. rewrite removelast_cons in * by discriminate.
    inversion IH as [|? ? (t & ->) H2]; subst. constructor; [now exists (String a t)|exact H2].
Qed.
Lemma piecewise_lines B c i : piecewise B c i (fun _ => True) <-> line_by_line B c i.
Proof.
  split.
  - intros P. exists (fun s l => run B 0 c (put i l s)).
    assert (E : forall s sd, run B sd c (put i "" s) = "").
    { intros s sd. pose proof (P s sd sd sd "" "" (or_introl eq_refl) I) as H. cbn in H. apply (f_equal String.length) in H. rewrite length_append in H.
      destruct (run B sd c (put i "" s)); [reflexivity|cbn in H; lia]. }
    assert (D : forall s sd x, run B sd c (put i x s) = run B 0 c (put i x s)).
    { intros s sd x. pose proof (P s sd 0 0 "" x (or_introl eq_refl) I) as H. cbn in H. now rewrite E in H. }
    intros s sd x. rewrite D. rewrite <- (full_joined x) at 1. pose proof (full_ends x) as F. revert F. generalize (full_lines x) as l.
    induction l as [|a l IH]; intros F; [cbn; apply E|]. destruct l as [|b l].
    + cbn. now rewrite !append_nil.
    + rewrite removelast_cons in F by discriminate. inversion F as [|? ? (t & ->) F']; subst. change (joined (map (fun l0 => run B 0 c (put i l0 s)) (?x :: ?l))) with (run B 0 c (put i x s) +++ joined (map (fun l0 => run B 0 c (put i l0 s)) l)).
      cbn [joined fold_right map]. rewrite (P s 0 0 0) by (try exact I; right; now exists t). f_equal. now apply IH.
  - intros (g & G) s sd sd1 sd2 a b EA _. rewrite !G, full_app, map_app by exact EA. apply joined_app.
Qed.
(** For any command, what the helpers for the concatenation add is right exactly if the command is stateless
    in the sense of the README. *)
Theorem C90_stateless_iff : forall k l p c i B dir,
  In k [CcSeqConc; RrSeqConc] -> adds k l -> In p l -> reads_one c i -> tight c -> is_cat B ->
  parallel_ok B dir p c i (fun n => n <> 0) (fun _ => True) <-> line_by_line B c i.
Proof.
  intros k l p c i B dir K A J R T CB. rewrite <- piecewise_lines. apply (C85_concat_iff k l); auto. intros ? ? _ _. exact I.
Qed.
Print Assumptions C90_stateless_iff.
(** For the annotated commands, likewise *)
Theorem C90_offered_iff : forall dir inv p c i B dir',
  offered dir inv p -> p_aggregator p = SpecPara.concat -> reads_one c i -> tight c -> is_cat B ->
  parallel_ok B dir' p c i (fun n => n <> 0) (fun _ => True) <-> line_by_line B c i.
Proof.
  intros dir inv p c i B dir' O A R T CB. rewrite <- piecewise_lines. apply (C68_concat_iff dir inv); auto. intros ? ? _ _. exact I.
Qed.
Print Assumptions C90_offered_iff.
(** Such a command prints nothing for empty input, whatever the chance. *)
Theorem C90_empty : forall B c i s sd, line_by_line B c i -> run B sd c (put i "" s) = "".
Proof. intros B c i s sd (g & G). now rewrite G. Qed.
Print Assumptions C90_empty.

(** ** Cuts anywhere *)
Lemma anywhere_chars B c i :
  (forall s sd sd1 sd2 a b, run B sd c (put i (a +++ b) s) = run B sd1 c (put i a s) +++ run B sd2 c (put i b s)) <-> char_by_char B c i.
Proof.
  split.
  - intros P. exists (fun s a => run B 0 c (put i (String a "") s)).
    assert (E : forall s sd, run B sd c (put i "" s) = "").
    { intros s sd. pose proof (P s sd sd sd "" "") as H. cbn in H. apply (f_equal String.length) in H. rewrite length_append in H.
      destruct (run B sd c (put i "" s)); [reflexivity|cbn in H; lia]. }
    intros s sd x. revert sd. induction x as [|a x IH]; intros sd; [apply E|].
    change (String a x) with (String a "" +++ x). rewrite (P s sd 0 0), IH. reflexivity.
  - intros (g & G) s sd sd1 sd2 a b. rewrite !G.
    assert (L : list_ascii_of_string (a +++ b) = list_ascii_of_string a ++ list_ascii_of_string b) by (induction a as [|x a IH]; cbn; [reflexivity|now rewrite IH]).
    rewrite L, map_app. apply joined_app.
Qed.
Section Anywhere.
  Variables (p : parallelizer) (c : civ) (i : Z) (B : behaviour) (dir : data_dir).
  Hypothesis S : In p (stateless SpecPara.concat).
  Hypothesis R : reads_one c i.
  Hypothesis CB : is_cat B.
  Let f s sd x := run B sd c (put i x s).
  Lemma any_f s sd x : f s sd x = B sd (v_cmd c) (map (wflag_of c s) (v_flags c)) (map (word_of c s) (v_ops c)) [x].
  Proof. apply put_run. exact R. Qed.
  Lemma any_parts : p_mapper p = seq_mapper /\ p_info_mapper_aggregator p = 0 /\ p_aggregator p = SpecPara.concat.
  Proof. destruct S as [<-|[<-|[]]]; auto. Qed.
  Lemma any_leaf s x y sd : x <> y -> (forall v, In v [x; y] -> v_acc c v = None /\ ~ In v (vars c)) -> evaluates B dir p c s (Leaf x y sd) (f s sd (s x)).
  Proof.
    intros N FR. destruct any_parts as (P1 & P2 & P3).
    destruct (mapper_run p c i x y R P1 P2 N (FR x (or_introl eq_refl)) (FR y (or_intror (or_introl eq_refl)))) as (m & G & W & E).
    rewrite any_f, <- E. now constructor.
  Qed.
  Lemma any_node s o sd ts rs : evaluate_all B dir p c s ts rs -> NoDup (o :: map root ts) -> ts <> [] -> length ts = length rs -> evaluates B dir p c s (Node o sd ts) (joined rs).
  Proof.
    intros E N NE L. destruct any_parts as (P1 & P2 & P3). destruct (cat_run dir c (map root ts) o rs) as (a & G & W & H); [exact N|now rewrite map_length|destruct ts; [contradiction|discriminate]|].
    rewrite <- (H B sd s CB). econstructor; [exact E| |exact W]. rewrite P3. exact G.
  Qed.
  Lemma any_sound : (forall s sd sd1 sd2 a b, f s sd (a +++ b) = f s sd1 a +++ f s sd2 b) -> ok_anywhere B dir p c i.
  Proof.
    intros H s t seed FR AR E.
    assert (E0 : forall sd, f s sd "" = "").
    { intros sd. pose proof (H s sd sd sd "" "") as X. cbn [String.append] in X. apply (f_equal String.length) in X. rewrite length_append in X. destruct (f s sd ""); [reflexivity|cbn in X; lia]. }
    assert (D : forall sd sd' x, f s sd x = f s sd' x) by (intros sd sd' x; pose proof (H s sd sd' sd' "" x) as X; cbn [String.append] in X; now rewrite E0 in X).
    assert (J : forall l, joined (map (f s 0) l) = f s 0 (joined l)).
    { induction l as [|x l IH]; [symmetry; apply E0|]. cbn [map joined fold_right] in *. change (fold_right String.append "" (map (f s 0) l)) with (joined (map (f s 0) l)). rewrite IH. symmetry. apply H. }
    assert (EV : forall t, fresh_plan c t -> arity (fun n => n <> 0) t -> evaluates B dir p c s t (f s 0 (joined (map s (parts t))))).
    { clear t FR AR E. induction t as [x y sd|o sd ts IH] using plan_rect'; intros FR AR.
      - cbn [parts map joined fold_right]. rewrite append_nil, (D 0 sd). destruct FR as (ND & FR). cbn in ND, FR. inversion ND as [|? ? Ni _]; subst. apply any_leaf; [intros ->; apply Ni; now left|exact FR].
      - pose proof (fresh_children _ _ _ _ FR) as FC. cbn in AR. destruct AR as (AN & AR). apply arity_children in AR.
        assert (G : map s (parts (Node o sd ts)) = List.concat (map (fun t => map s (parts t)) ts)) by (cbn [parts]; rewrite flat_map_concat_map, concat_map, map_map; reflexivity).
        rewrite G, joined_concat, <- J, map_map, map_map. apply any_node.
        + apply all_evaluate. rewrite Forall_forall in *. intros t I1. now apply IH; auto.
        + apply roots_nodup. apply FR.
        + intros ->. now apply AN.
        + now rewrite map_length. }
    assert (X : f s 0 (s i) = run B seed c s).
    { rewrite (D 0 seed). unfold f. rewrite (put_run B _ c i s _ R). symmetry. now apply run_original. }
    rewrite <- X, E. now apply EV.
  Qed.
  Hypothesis T : tight c.
  Lemma any_complete : ok_anywhere B dir p c i -> forall s sd sd1 sd2 a b, f s sd (a +++ b) = f s sd1 a +++ f s sd2 b.
  Proof.
    intros OK s sd sd1 sd2 a b. destruct (fresh_vars c i T) as (z & Z1 & Z2).
    set (s' := connect [i; z; z + 1]%Z [a +++ b; a; b] s).
    assert (Si : s' i = a +++ b) by (unfold s'; cbn; now rewrite Z.eqb_refl).
    assert (Sz : s' z = a) by (unfold s'; cbn; destruct (Z.eqb_spec z i); [lia|]; now rewrite Z.eqb_refl).
    assert (Sz' : s' (z + 1)%Z = b) by (unfold s'; cbn; destruct (Z.eqb_spec (z + 1) i); [lia|]; destruct (Z.eqb_spec (z + 1) z); [lia|]; now rewrite Z.eqb_refl).
    assert (LOC : forall sd x, f s sd x = f s' sd x).
    { intros sd0 x. rewrite !any_f. destruct (words_only c i s s' R) as (-> & ->); [|reflexivity]. intros v I1 N. symmetry. apply connect_out.
      intros [J|[J|[J|[]]]]; [congruence|subst v; apply (Z2 z); [lia|exact I1]|subst v; apply (Z2 (z + 1)%Z); [lia|exact I1]]. }
    set (t := Node (z + 4)%Z 0 [Leaf z (z + 2)%Z sd1; Leaf (z + 1)%Z (z + 3)%Z sd2]).
    assert (FR : fresh_plan c t) by (split; [cbn; repeat constructor; cbn; lia|]; intros v J; apply Z2; cbn in J; lia).
    assert (E : evaluates B dir p c s' t (run B sd c s')).
    { apply OK; [exact FR|cbn; auto|]. change (parts t) with [z; (z + 1)%Z]. cbn [map joined fold_right]. now rewrite Si, Sz, Sz', append_nil. }
    assert (E' : evaluates B dir p c s' t (joined [f s' sd1 (s' z); f s' sd2 (s' (z + 1)%Z)])).
    { apply any_node; [|cbn; repeat constructor; cbn; lia|discriminate|reflexivity].
      constructor; [|constructor; [|constructor]]; apply any_leaf; try lia; intros v J; apply Z2; cbn in J; lia. }
    pose proof (C50_one_result _ _ _ _ _ _ _ _ E E') as X. cbn [joined fold_right] in X. rewrite append_nil, Sz, Sz' in X.
    rewrite !LOC, <- X, any_f, (run_original B sd c i s' R), Si. reflexivity.
  Qed.
End Anywhere.
(** The README says that stateless commands need no caution about where inputs are split.  This is so exactly
    for commands that treat every character by itself. *)
Theorem C90_anywhere_iff : forall k l p c i B dir,
  In k [CcSeqConc; RrSeqConc] -> adds k l -> In p l -> reads_one c i -> tight c -> is_cat B ->
  ok_anywhere B dir p c i <-> char_by_char B c i.
Proof.
  intros k l p c i B dir K A J R T CB. rewrite <- anywhere_chars. pose proof (conc_stateless k l p K A J) as S. split.
  - now apply any_complete.
  - now apply any_sound.
Qed.
Print Assumptions C90_anywhere_iff.

(** ** Records of the class stateless *)
Lemma always_class cmd inv : cmd_name inv = cmd -> cases_of cmd = Some [mkCase Otherwise "stateless"] -> old_class inv "stateless".
Proof. intros C E. rewrite old_class_iff, C. exists [mkCase Otherwise "stateless"]. split; [exact E|]. apply (as_here _ (mkCase _ "stateless")). exact I. Qed.
(** Refuted for tac: the record calls it stateless, but it is not; the concatenation is wrong. *)
Theorem C90_tac_refuted : forall k l p inv c i B dir,
  In k [CcSeqConc; RrSeqConc] -> adds k l -> In p l -> reads_one c i -> tight c -> is_cat B -> is_tac B ->
  inv = mkInv "tac" [] [] -> invocation_of inv c -> v_ops c = [] ->
  old_class inv "stateless" /\ ~ line_by_line B c i /\ ~ parallel_ok B dir p c i (fun n => n <> 0) (fun _ => True).
Proof.
  intros k l p inv c i B dir K A J R T CB TB -> IN NO.
  assert (N : ~ line_by_line B c i).
  { intros (g & G). destruct IN as (C1 & C2). cbn in C1, C2. apply map_eq_nil in C2.
    assert (X : forall s x, run B 0 c (put i x s) = joined (rev (full_lines x))).
    { intros s x. rewrite (put_run B _ c i s _ R), NO, C1, C2. apply TB. }
    pose proof (X (fun _ => "") (String "a" (String newline (String "b" (String newline ""))))) as X1. rewrite G in X1.
    pose proof (X (fun _ => "") (String "a" (String newline ""))) as X2. rewrite G in X2.
    pose proof (X (fun _ => "") (String "b" (String newline ""))) as X3. rewrite G in X3.
    cbn in X1, X2, X3. rewrite append_nil in X1, X2, X3. rewrite X2, X3 in X1. discriminate. }
  split; [apply (always_class "tac"); [reflexivity|vm_compute; reflexivity]|]. split; [exact N|].
  now rewrite (C90_stateless_iff k l p c i B dir K A J R T CB).
Qed.
Print Assumptions C90_tac_refuted.
(** With a command line that prints two results in reverse order, tac is treated right. *)
Theorem C90_tac_backwards : forall dir text agg flags c i B,
  parse dir text = Ok agg -> flags_only (flag_option_list agg) flags -> joins_backwards B agg -> reads_one c i -> tight c -> is_tac B ->
  invocation_of (mkInv "tac" [] []) c -> v_ops c = [] ->
  parallel_ok B dir (custom_chunks CUSTOM_2_ARY text) c i (takes_many CUSTOM_2_ARY) (fun _ => True).
Proof.
  intros dir text agg flags c i B P F JB R T TB IN NO. destruct IN as (C1 & C2). cbn in C1, C2. apply map_eq_nil in C2.
  assert (X : forall s sd x, run B sd c (put i x s) = joined (rev (full_lines x))).
  { intros s sd x. rewrite (put_run B _ c i s _ R), NO, C1, C2. apply TB. }
  apply (C89_custom_iff dir CUSTOM_2_ARY text agg flags c i B (fun _ => True) P F); [discriminate|exact R|exact T|intros ? ? _ _; split; exact I|].
  split; [intros; now rewrite !X|]. intros s sd sd' pieces (_ & L) EL _. destruct pieces as [|a [|b [|? ?]]]; try (now specialize (L eq_refl)).
  cbn [removelast] in EL. inversion EL; subst. cbn [map joined fold_right]. rewrite append_nil, JB, !X, full_app, rev_app_distr by assumption. apply joined_app.
Qed.
Print Assumptions C90_tac_backwards.
(** rev is stateless as its record says. *)
Theorem C90_rev : forall k l p inv c i B dir,
  In k [CcSeqConc; RrSeqConc] -> adds k l -> In p l -> reads_one c i -> tight c -> is_cat B -> is_rev B ->
  inv = mkInv "rev" [] [] -> invocation_of inv c -> v_ops c = [] ->
  old_class inv "stateless" /\ parallel_ok B dir p c i (fun n => n <> 0) (fun _ => True) /\ ~ ok_anywhere B dir p c i.
Proof.
  intros k l p inv c i B dir K A J R T CB TB -> IN NO. destruct IN as (C1 & C2). cbn in C1, C2. apply map_eq_nil in C2.
  assert (X : forall s sd x, run B sd c (put i x s) = joined (map reversed_line (full_lines x))).
  { intros s sd x. rewrite (put_run B _ c i s _ R), NO, C1, C2. apply TB. }
  split; [apply (always_class "rev"); [reflexivity|vm_compute; reflexivity]|]. split.
  - rewrite (C90_stateless_iff k l p c i B dir K A J R T CB). now exists (fun _ => reversed_line).
  - rewrite (C90_anywhere_iff k l p c i B dir K A J R T CB). intros (g & G).
    pose proof (X (fun _ => "") 0 "ab") as X1. rewrite G in X1. pose proof (X (fun _ => "") 0 "a") as X2. rewrite G in X2. pose proof (X (fun _ => "") 0 "b") as X3. rewrite G in X3.
    cbn in X1, X2, X3. rewrite append_nil in X1, X2, X3. rewrite X2, X3 in X1. discriminate.
Qed.
Print Assumptions C90_rev.
(** tr: the record says stateless if -d is given or -s is not. *)
Lemma tr_old inv : cmd_name inv = "tr" -> old_class inv "stateless" <-> uses_any inv ["-d"; "--delete"] \/ ~ uses_any inv ["-s"; "--squeeze-repeats"].
Proof.
  intros C. rewrite old_class_iff, C.
  assert (E : exists cs, cases_of "tr" = Some cs /\ (assigned inv cs "stateless" <-> uses_any inv ["-d"; "--delete"] \/ ~ uses_any inv ["-s"; "--squeeze-repeats"])).
  { eexists. split; [vm_compute; reflexivity|]. split.
    - intros A. inversion A as [c cs M E1 E2|c cs k M A' E1 E2]; subst; [left; exact M|]. right. intros U.
      inversion A' as [c1 cs1 M1 E3 E4|c1 cs1 k1 M1 A1 E3 E4]; subst. now apply M1.
    - intros H. destruct (met_dec inv (Exists_ ["-d"; "--delete"])) as [M|M]; [now apply (as_here _ (mkCase _ "stateless"))|].
      destruct H as [H|H]; [contradiction|]. apply as_later; [exact M|]. apply as_later; [exact H|]. now apply (as_here _ (mkCase _ "stateless")). }
  destruct E as (cs & E & H). rewrite E. split.
  - intros (cs' & [= <-] & A). now apply H.
  - intros U. exists cs. split; [reflexivity|now apply H].
Qed.
(** If this is wrong and neither help nor version is asked for, then both are given. *)
Theorem C90_tr_record : forall text inv k l p c v B o dir,
  parse shipped_dir text = Ok inv -> cmd_name inv = "tr" -> In k [CcSeqConc; RrSeqConc] -> adds k l -> In p l ->
  invocation_of inv c -> reads_one c v -> tight c -> is_tr o B -> is_cat B -> ~ uses_any inv ["--help"; "--version"] ->
  old_class inv "stateless" -> ~ parallel_ok B dir p c v (fun n => n <> 0) (fun _ => True) ->
  uses_any inv ["-d"; "--delete"] /\ uses inv "-s".
Proof.
  intros text inv k l p c v B o dir PA C K A J IN R T TB CB NH OC NO.
  assert (S : uses inv "-s").
  { destruct (met_dec inv (Exists_ ["-s"])) as [M|M]; [now apply uses_any_one in M|]. exfalso. apply NO.
    apply (C58_without_squeeze text inv p c v B o dir PA C); auto; [now apply (conc_stateless k l)|].
    intros (n & [<-|I1] & U); [apply M; apply uses_any_one; exact U|]. apply NH. now exists n. }
  split; [|exact S]. apply (tr_old inv C) in OC as [D|D]; [exact D|]. destruct D. exists "-s". split; [now left|exact S].
Qed.
Print Assumptions C90_tr_record.
(** The comment in the record says that the class pure is needed only if the second argument to -s is a newline.  Without -d,
    it is stateless exactly if the newlines that it prints for the newlines in its input are not squeezed. *)
Theorem C90_tr_squeeze_iff : forall text inv k l p c v B o dir,
  parse shipped_dir text = Ok inv -> cmd_name inv = "tr" -> In k [CcSeqConc; RrSeqConc] -> adds k l -> In p l ->
  invocation_of inv c -> reads_one c v -> tight c -> is_tr o B -> is_cat B -> ~ uses_any inv ["-d"; "--help"; "--version"] ->
  parallel_ok B dir p c v (fun n => n <> 0) (fun _ => True) <->
  forall s, let fl := map (wflag_of c s) (v_flags c) in let ops := map (word_of c s) (v_ops c) in
            tr_squeezes o fl ops (tr_image o fl ops newline) = false.
Proof.
  intros text inv k l p c v B o dir PA C K A J IN R T TB CB NH.
  rewrite (C58_tr_iff text inv p c v B o dir PA C); auto; [|now apply (conc_stateless k l)].
  assert (H : forall s, given (map (wflag_of c s) (v_flags c)) ["--help"; "--version"] = false) by (intros s; apply (given_unused inv); [exact IN|]; eapply unused_sub; [exact NH|]; intros x; cbn; tauto).
  assert (D : forall s a, tr_deletes o (map (wflag_of c s) (v_flags c)) (map (word_of c s) (v_ops c)) a = false).
  { intros s a. unfold tr_deletes. rewrite (given_unused inv c s ["-d"]); [|exact IN|eapply unused_sub; [exact NH|]; intros x; cbn; tauto].
    now destruct (map (word_of c s) (v_ops c)) as [|[]]. }
  split; intros X s; specialize (X s).
  - cbv zeta. destruct X as (_ & [X|[(_ & X)|X]]); [now apply X|exact X|]. now rewrite H in X.
  - split; [now left|]. right. left. split; [apply D|exact X].
Qed.
Print Assumptions C90_tr_squeeze_iff.

(** ** A system *)
Definition mirror : behaviour := fun seed cmd fl ops inputs =>
  if String.eqb cmd "tac" then joined (rev (full_lines (joined inputs)))
  else if String.eqb cmd "rev" then joined (map reversed_line (full_lines (joined inputs)))
  else if String.eqb cmd "swap" then joined (rev inputs)
  else simple_system seed cmd fl ops inputs.
Lemma mirror_cat : is_cat mirror.
Proof. intros seed ops inputs _. reflexivity. Qed.
Lemma mirror_tac : is_tac mirror.
Proof. intros seed x. unfold mirror. cbn [String.eqb Ascii.eqb Bool.eqb joined fold_right]. now rewrite append_nil. Qed.
Lemma mirror_rev : is_rev mirror.
Proof. intros seed x. unfold mirror. cbn [String.eqb Ascii.eqb Bool.eqb]. change (joined [x]) with (x +++ ""). now rewrite append_nil. Qed.
Lemma mirror_swap : joins_backwards mirror (mkInv "swap" [] []).
Proof. intros seed x y. unfold aggregated, mirror. cbn. now rewrite append_nil. Qed.
Lemma mirror_tr : is_tr simple_tr mirror.
Proof. intros seed fl ops x KN. now apply (simple_is_tr seed fl ops x). Qed.
Lemma conc_added : adds CcSeqConc [chunks SpecPara.concat].
Proof. apply adds_one; try reflexivity; intros q; discriminate. Qed.
(** tac is wrong with the concatenation and right with a command line that swaps; rev is right for cuts at lines
    only; tr -d, with a character that is not a newline, is right for cuts anywhere. *)
Example C90_case :
  old_class (mkInv "tac" [] []) "stateless" /\
  ~ parallel_ok mirror shipped_dir (chunks SpecPara.concat) (reader "tac" []) 1 (fun n => n <> 0) (fun _ => True) /\
  parallel_ok mirror shipped_dir (custom_chunks CUSTOM_2_ARY "swap") (reader "tac" []) 1 (takes_many CUSTOM_2_ARY) (fun _ => True) /\
  parallel_ok mirror shipped_dir (chunks SpecPara.concat) (reader "rev" []) 1 (fun n => n <> 0) (fun _ => True) /\
  ~ ok_anywhere mirror shipped_dir (chunks SpecPara.concat) (reader "rev" []) 1 /\
  ok_anywhere mirror shipped_dir (chunks SpecPara.concat) (filter_civ "tr" [FFlag "-d"] [PArg "a"]) 1.
Proof.
  destruct (reader_reads "tac" []) as (R & T). destruct (reader_reads "rev" []) as (R' & T').
  pose proof (C90_tac_refuted CcSeqConc _ _ _ _ 1 mirror shipped_dir (or_introl eq_refl) conc_added (or_introl eq_refl) R T mirror_cat mirror_tac eq_refl (conj eq_refl eq_refl) eq_refl) as (X1 & _ & X2).
  pose proof (C90_rev CcSeqConc _ _ _ _ 1 mirror shipped_dir (or_introl eq_refl) conc_added (or_introl eq_refl) R' T' mirror_cat mirror_rev eq_refl (conj eq_refl eq_refl) eq_refl) as (_ & X3 & X4).
  split; [exact X1|]. split; [exact X2|]. split; [|split; [exact X3|split; [exact X4|]]].
  - apply (C90_tac_backwards shipped_dir "swap" (mkInv "swap" [] []) []); [vm_compute; reflexivity|constructor|exact mirror_swap|exact R|exact T|exact mirror_tac|split; reflexivity|reflexivity].
  - apply (C90_anywhere_iff CcSeqConc _ _ _ 1 mirror shipped_dir (or_introl eq_refl) conc_added (or_introl eq_refl)); [now apply filter_civ_reads|now apply filter_civ_tight|exact mirror_cat|].
    exists (fun _ a => if Ascii.eqb a "a" then "" else String a ""). intros s sd x. rewrite (put_run mirror _ _ 1); [|now apply filter_civ_reads].
    transitivity (tr_output simple_tr [WFlag "-d"] [WText "a"] x); [apply (mirror_tr sd [WFlag "-d"] [WText "a"] x); apply Forall_forall; cbn; intuition (subst; cbn; auto 12)|].
    assert (SQ : forall y b, squeeze_from b (tr_squeezes simple_tr [WFlag "-d"] [WText "a"]) y = y) by (induction y as [|e y IHy]; intros b; [reflexivity|]; cbn; f_equal; apply IHy).
    unfold tr_output, squeeze. rewrite SQ. change (given [WFlag "-d"] ["--help"; "--version"]) with false. cbv iota.
    induction x as [|a x IH]; [reflexivity|]. cbn [keep_chars list_ascii_of_string map joined fold_right].
    assert (DE : tr_deletes simple_tr [WFlag "-d"] [WText "a"] a = Ascii.eqb a "a") by (unfold tr_deletes; cbn -[Ascii.eqb]; now destruct (Ascii.eqb a "a")).
    rewrite DE.
    destruct (Ascii.eqb a "a"); cbn [negb map_chars]; [exact IH|]. cbn [String.append]. f_equal. exact IH.
Qed.
(** The record says stateless for tr -d -s with newlines squeezed, which is wrong; without -d and with -s it says pure,
    though tr -s with blanks is stateless and tr -s from newlines to blanks is not. *)
Example C90_tr_case :
  parse shipped_dir "tr -d -s a '\n'" = Ok (mkInv "tr" [Flag "-d"; Flag "-s"] ["a"; "\n"]) /\
  old_class (mkInv "tr" [Flag "-d"; Flag "-s"] ["a"; "\n"]) "stateless" /\
  ~ parallel_ok mirror shipped_dir (chunks SpecPara.concat) (filter_civ "tr" [FFlag "-d"; FFlag "-s"] [PArg "a"; PArg "\n"]) 1 (fun n => n <> 0) (fun _ => True) /\
  parallel_ok mirror shipped_dir (chunks SpecPara.concat) (filter_civ "tr" [FFlag "-s"] [PArg " "]) 1 (fun n => n <> 0) (fun _ => True) /\
  ~ parallel_ok mirror shipped_dir (chunks SpecPara.concat) (filter_civ "tr" [FFlag "-s"] [PArg "\n"; PArg " "]) 1 (fun n => n <> 0) (fun _ => True).
Proof.
  assert (P1 : parse shipped_dir "tr -d -s a '\n'" = Ok (mkInv "tr" [Flag "-d"; Flag "-s"] ["a"; "\n"])) by (vm_compute; reflexivity).
  assert (P2 : parse shipped_dir "tr -s ' '" = Ok (mkInv "tr" [Flag "-s"] [" "])) by (vm_compute; reflexivity).
  assert (P3 : parse shipped_dir "tr -s '\n' ' '" = Ok (mkInv "tr" [Flag "-s"] ["\n"; " "])) by (vm_compute; reflexivity).
  assert (NU : forall ops, ~ uses_any (mkInv "tr" [Flag "-s"] ops) ["-d"; "--help"; "--version"]).
  { intros ops (n & I1 & (fo & [<-|[]] & E)). cbn in E. subst n. cbn in I1. intuition discriminate. }
  split; [exact P1|]. split; [|split; [|split]].
  - apply tr_old; [reflexivity|]. left. exists "-d". split; [now left|]. exists (Flag "-d"). split; [now left|reflexivity].
  - rewrite (C58_tr_iff _ _ _ (filter_civ "tr" [FFlag "-d"; FFlag "-s"] [PArg "a"; PArg "\n"]) 1 mirror simple_tr shipped_dir P1 eq_refl (or_introl eq_refl) (conj eq_refl eq_refl)); [|now apply filter_civ_reads|now apply filter_civ_tight|exact mirror_tr|exact mirror_cat].
    intros H. destruct (H (fun _ => "")) as (_ & [X|[(_ & X)|X]]); [specialize (X newline eq_refl)| |]; vm_compute in X; discriminate.
  - apply (C90_tr_squeeze_iff _ _ CcSeqConc _ _ (filter_civ "tr" [FFlag "-s"] [PArg " "]) 1 mirror simple_tr shipped_dir P2 eq_refl (or_introl eq_refl) conc_added (or_introl eq_refl) (conj eq_refl eq_refl)); auto using mirror_tr, mirror_cat; [now apply filter_civ_reads|now apply filter_civ_tight].
  - rewrite (C90_tr_squeeze_iff _ _ CcSeqConc _ _ (filter_civ "tr" [FFlag "-s"] [PArg "\n"; PArg " "]) 1 mirror simple_tr shipped_dir P3 eq_refl (or_introl eq_refl) conc_added (or_introl eq_refl) (conj eq_refl eq_refl)); auto using mirror_tr, mirror_cat; [|now apply filter_civ_reads|now apply filter_civ_tight].
    intros H. specialize (H (fun _ => "")). vm_compute in H. discriminate.
Qed.
