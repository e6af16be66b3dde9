(** * Theorems about commands that print the name of their input, for plans of every kind (C88, C89) *)
From Coq Require Import Lia.
Require Import Verif.PyBase Verif.JsonData Verif.Parser Verif.ShippedData Verif.Access Verif.IOInfo Verif.IOVars
  Verif.Transformers Verif.ParaTypes Verif.ParaGen Verif.MapperAgg Verif.SpecLists Verif.SpecIO Verif.SpecVars Verif.SpecPara Verif.SpecMapper
  Verif.ListFacts Verif.IOVarsFacts Verif.SpecSem Verif.SemFacts Verif.SemRun Verif.SemProps Verif.SemProps2 Verif.SpecSem4
  Verif.SpecNames Verif.NamesFacts Verif.NamesBlind Verif.P_Names Verif.SpecCustom Verif.CustomFacts Verif.P_Custom Verif.SpecNames2.

(** Whatever the mapper and the aggregator are: what a plan prints does not depend on how the whole input is
    called. *)
Theorem C88_blind : forall B names name dir p c i s t r,
  reads_one c i -> no_further_files p c -> fresh_plan c t ->
  (nevaluates B (put i name names) dir p c s t r <-> nevaluates B names dir p c s t r).
Proof.
  intros B names name dir p c i s t r R NF F. split; intros E; [|now apply blind_plan].
  assert (X : nevaluates B (put i (names i) (put i name names)) dir p c s t r) by now apply blind_plan.
  assert (H : forall nm nm' : naming, (forall v, nm v = nm' v) -> forall m sd st, nrun B nm sd m st = nrun B nm' sd m st).
  { intros nm nm' Q m sd st. unfold nrun. f_equal. apply map_ext. intros v. unfold called. now rewrite Q. }
  assert (Q : forall v, put i (names i) (put i name names) v = names v).
  { intros v. unfold put. destruct (Z.eqb_spec v i) as [->|]; [reflexivity|]. destruct (Z.eqb_spec v i); [contradiction|reflexivity]. }
  specialize (H _ _ Q). clear E Q F. revert r X. generalize (put i (names i) (put i name names)) H. clear H. intros nm H.
  induction t as [x y sd|o sd ts IH] using plan_rect'; intros r E.
  - inversion E; subst. rewrite H. now constructor.
  - inversion E as [|? ? ? outs k a EA G W]; subst. rewrite H. econstructor; [|exact G|exact W]. clear G W E. revert outs EA.
    induction ts as [|t ts IHts]; intros outs EA; inversion EA; subst; inversion IH; subst; constructor; auto.
Qed.
Print Assumptions C88_blind.
(** So a plan of any kind that is right whatever the files are called belongs to a command that does not print
    the name of its input. *)
Theorem C88_any_plan : forall B dir p c i s t seed,
  reads_one c i -> no_further_files p c -> fresh_plan c t ->
  (forall names, nevaluates B names dir p c s t (nrun B names seed c s)) ->
  forall names name, nrun B (put i name names) seed c s = nrun B names seed c s.
Proof.
  intros B dir p c i s t seed R NF F H names name. eapply neval_once; [|apply (H names)].
  apply (C88_blind B names name dir p c i s t _ R NF F). apply H.
Qed.
Print Assumptions C88_any_plan.
(** wc on a file: no parallelizer has a plan that is right for two different names of the file. *)
Theorem C89_wc_file_refuted : forall inv p c i B o with_name dir names name s t seed,
  cmd_name inv = "wc" -> Forall (fun fo => In (fo_name fo) wc_columns) (flag_option_list inv) -> invocation_of inv c ->
  reads_one c i -> In (PVar i) (v_ops c) -> no_further_files p c -> is_nwc o with_name B -> fresh_plan c t ->
  name <> names i ->
  ~ (nevaluates B names dir p c s t (nrun B names seed c s) /\
     nevaluates B (put i name names) dir p c s t (nrun B (put i name names) seed c s)).
Proof.
  intros inv p c i B o with_name dir names name s t seed C FL IN R IO NF (INJ & W) F D (E1 & E2).
  apply (C88_blind B names name dir p c i s t _ R NF F) in E2. pose proof (neval_once _ _ _ _ _ _ _ _ _ E1 E2) as E.
  rewrite !(nrun_original B _ _ c i s R) in E. unfold label in E. apply operand_iff in IO. rewrite IO in E. unfold nout in E.
  replace (v_cmd c) with "wc" in E by (destruct IN as (H & _); congruence).
  rewrite !W in E by now apply (names_known inv). apply INJ in E. unfold put in E. rewrite Z.eqb_refl in E. congruence.
Qed.
Print Assumptions C89_wc_file_refuted.
(** With a command line that adds up and keeps the name in the first result, a plan for wc on a file is right
    exactly if the first part has the name of the file. *)
Theorem C89_wc_file_iff : forall dir text agg flags inv c i B o with_name names s t seed,
  parse dir text = Ok agg -> flags_only (flag_option_list agg) flags -> keeps_first_name with_name B agg (map (wflag_of c s) (v_flags c)) ->
  cmd_name inv = "wc" -> Forall (fun fo => In (fo_name fo) wc_columns) (flag_option_list inv) -> invocation_of inv c ->
  reads_one c i -> In (PVar i) (v_ops c) -> is_nwc o with_name B ->
  fresh_plan c t -> arity (takes_many CUSTOM_2_ARY) t -> cut_at_lines (s i) (map s (parts t)) ->
  nevaluates B names dir (custom_chunks CUSTOM_2_ARY text) c s t (nrun B names seed c s) <-> hd_error (map names (parts t)) = Some (names i).
Proof.
  intros dir text agg flags inv c i B o with_name names s t seed P F KF C FL IN R IO (INJ & W) FR AR (E & CU).
  apply operand_iff in IO. set (fl := map (wflag_of c s) (v_flags c)) in *.
  assert (WC : forall sd name x, nout B c s sd (label c i name) x = with_name (map (wc_number o x) (wc_asked fl)) name).
  { intros sd name x. unfold nout, label. rewrite IO. replace (v_cmd c) with "wc" by (destruct IN as (H & _); congruence). rewrite W by now apply (names_known inv). reflexivity. }
  assert (EV : forall t, fresh_plan c t -> arity (takes_many CUSTOM_2_ARY) t -> Forall ends_line (removelast (map s (parts t))) ->
    nevaluates B names dir (custom_chunks CUSTOM_2_ARY text) c s t (with_name (map (wc_number o (joined (map s (parts t)))) (wc_asked fl)) (hd "" (map names (parts t))))).
  { clear t FR AR E CU seed. induction t as [x y sd|op sd ts IH] using plan_rect'; intros FR AR CU.
    - destruct FR as (ND & FR). cbn in *. inversion ND as [|? ? Ni _]; subst.
      destruct (mapper_nrun (custom_chunks CUSTOM_2_ARY text) c i x y R eq_refl eq_refl) as (m & G & Wm & E); [intros ->; apply Ni; now left|apply FR; now left|apply FR; right; now left|].
      rewrite append_nil, <- (WC sd), <- E. now constructor.
    - pose proof (fresh_children _ _ _ _ FR) as FC. cbn in AR. destruct AR as ((AN & A2) & AR). specialize (A2 eq_refl). apply arity_children in AR.
      destruct ts as [|t1 [|t2 [|? ?]]]; try discriminate. inversion IH as [|? ? IH1 IH']; subst. inversion IH' as [|? ? IH2 _]; subst.
      inversion FC as [|? ? F1 FC']; subst. inversion FC' as [|? ? F2 _]; subst. inversion AR as [|? ? R1 AR']; subst. inversion AR' as [|? ? R2 _]; subst.
      assert (NE : forall t, arity (takes_many CUSTOM_2_ARY) t -> parts t <> []) by (intros t; apply parts_nonempty; now intros n (NZ & _)).
      cbn [parts flat_map] in *. rewrite app_nil_r in *. rewrite !map_app in *.
      destruct (groups_ends [map s (parts t1); map s (parts t2)]) as (G1 & G2).
      { repeat constructor; intros X; apply map_eq_nil in X; now apply NE in X. }
      { cbn. now rewrite app_nil_r. }
      inversion G2 as [|? ? C1 G2']; subst. inversion G2' as [|? ? C2 _]; subst. cbn [map removelast] in G1. inversion G1 as [|? ? EX _]; subst.
      destruct (string_nrun dir CUSTOM_2_ARY text c [root t1; root t2] op
        [with_name (map (wc_number o (joined (map s (parts t1)))) (wc_asked fl)) (hd "" (map names (parts t1)));
         with_name (map (wc_number o (joined (map s (parts t2)))) (wc_asked fl)) (hd "" (map names (parts t2)))] agg flags P F) as (a & GA & Wa & Ea).
      + discriminate.
      + split; [discriminate|reflexivity].
      + change [root t1; root t2] with (map root [t1; t2]). apply roots_nodup. apply FR.
      + reflexivity.
      + rewrite joined_app.
        replace (with_name _ _) with (nrun B names sd a (connect [root t1; root t2] [with_name (map (wc_number o (joined (map s (parts t1)))) (wc_asked fl)) (hd "" (map names (parts t1)));
         with_name (map (wc_number o (joined (map s (parts t2)))) (wc_asked fl)) (hd "" (map names (parts t2)))] s)).
        * econstructor; [|exact GA|exact Wa]. constructor; [now apply IH1|]. constructor; [now apply IH2|constructor].
        * rewrite Ea. cbn [map combine]. rewrite KF, column_map. f_equal.
          -- apply map_ext_in. intros n J. symmetry. apply wc_number_app; [exact EX|now apply (asked_columns _ _ J)].
          -- specialize (NE t1 R1). destruct (parts t1); [contradiction|reflexivity]. }
  specialize (EV t FR AR CU). rewrite <- E in EV.
  assert (NE : parts t <> []) by (eapply parts_nonempty; [|exact AR]; now intros n (NZ & _)).
  rewrite (nrun_original B _ _ c i s R), WC. split.
  - intros X. pose proof (neval_once _ _ _ _ _ _ _ _ _ EV X) as H. apply INJ in H. destruct (parts t); [contradiction|]. cbn in *. now rewrite H.
  - intros X. assert (H : hd "" (map names (parts t)) = names i) by (destruct (parts t); [contradiction|]; cbn in *; congruence). now rewrite <- H.
Qed.
Print Assumptions C89_wc_file_iff.
(** Cases: wc -l on a file that is cut into two parts.  Names follow the numbers after a hash sign. *)
Definition hash_name (l : list nat) (n : string) : string := wc_show unary_wc l +++ String "#" n.
Fixpoint at_hash (x : string) : string * string :=
  match x with
  | "" => ("", "")
  | String a x' => if Ascii.eqb a "#" then ("", x') else let r := at_hash x' in (String a (fst r), snd r)
  end.
Definition tally_names : nbehaviour := fun sd cmd fl ops inputs =>
  if String.eqb cmd "wc" then
    match inputs with
    | [(Some n, x)] => hash_name (map (wc_number unary_wc x) (wc_asked fl)) n
    | _ => tally sd cmd fl ops (map snd inputs)
    end
  else match inputs with
       | [(_, x); (_, y)] => hash_name (column_wise [Nat.add] (wc_read unary_wc (fst (at_hash x))) (wc_read unary_wc (fst (at_hash y)))) (snd (at_hash x))
       | _ => ""
       end.
Lemma at_hash_name l n : at_hash (hash_name l n) = (wc_show unary_wc l, n).
Proof.
  unfold hash_name. assert (H : has_char "#" (wc_show unary_wc l) = false).
  { change (wc_show unary_wc l) with (unlines (map ones l)). induction l as [|k l IH]; [reflexivity|].
    change (unlines (map ones (k :: l))) with ((ones k +++ String newline "") +++ unlines (map ones l)). rewrite !has_char_app, IH, orb_false_r.
    clear. unfold ones. induction k as [|k IH]; [reflexivity|]. cbn in *. exact IH. }
  revert H. generalize (wc_show unary_wc l). intros x. induction x as [|a x IH]; intros H; [reflexivity|].
  cbn [has_char] in H. apply orb_false_iff in H as (H1 & H2). cbn [String.append at_hash]. rewrite Ascii.eqb_sym, H1, (IH H2). reflexivity.
Qed.
Lemma tally_nwc : is_nwc unary_wc hash_name tally_names.
Proof.
  split.
  - intros l n n' H. apply (f_equal (fun x => snd (at_hash x))) in H. now rewrite !at_hash_name in H.
  - intros seed fl ops n x K. unfold tally_names. cbn [String.eqb Ascii.eqb Bool.eqb]. destruct n as [n|]; [reflexivity|].
    unfold tally. cbn [map snd String.eqb Ascii.eqb Bool.eqb joined fold_right]. now rewrite append_nil.
Qed.
Definition wc_file : civ := mkCiv "wc" [FFlag "-l"] [PVar 1] PNone (PVar 2) (am_set (am_set am_empty 1 STREAM_INPUT) 2 STREAM_OUTPUT).
Example C89_wc_file_case :
  parse shipped_dir "wc -l f" = Ok (mkInv "wc" [Flag "-l"] ["f"]) /\ parse shipped_dir "add" = Ok (mkInv "add" [] []) /\
  nrun tally_names two_names 0 wc_file two_texts = hash_name [2] "f" /\
  nevaluates tally_names two_names shipped_dir (custom_chunks CUSTOM_2_ARY "add") wc_file two_texts two_parts (hash_name [2] "part1") /\
  ~ nevaluates tally_names two_names shipped_dir (custom_chunks CUSTOM_2_ARY "add") wc_file two_texts two_parts (nrun tally_names two_names 0 wc_file two_texts) /\
  nevaluates tally_names (put 3 "f" two_names) shipped_dir (custom_chunks CUSTOM_2_ARY "add") wc_file two_texts two_parts (nrun tally_names (put 3 "f" two_names) 0 wc_file two_texts).
Proof.
  assert (P : parse shipped_dir "add" = Ok (mkInv "add" [] [])) by (vm_compute; reflexivity).
  assert (V : vars wc_file = [1; 2]%Z) by (vm_compute; reflexivity).
  assert (R : reads_one wc_file 1).
  { split; [split; rewrite V; [repeat constructor; cbn; lia|intros v [<-|[<-|[]]]; discriminate]|]. rewrite V. split; [|split; [|split]].
    - apply kept_yes; [reflexivity|]. apply kept_no; [discriminate|constructor].
    - exists 2%Z. split; [reflexivity|]. apply kept_no; [discriminate|]. apply kept_yes; [reflexivity|constructor].
    - intros x J. destruct J.
    - intros n a [J|[]]. discriminate. }
  assert (FR : fresh_plan wc_file two_parts).
  { split; [cbn; repeat constructor; cbn; lia|]. intros v J. rewrite V. cbn in J. split; [|cbn; lia].
    cbn. unfold am_set, am_empty. destruct (Z.eqb_spec v 2), (Z.eqb_spec v 1); subst; lia || reflexivity. }
  assert (AR : arity (takes_many CUSTOM_2_ARY) two_parts) by (cbn; repeat split; auto).
  assert (CU : cut_at_lines (two_texts 1%Z) (map two_texts (parts two_parts))).
  { split; [reflexivity|]. constructor; [|constructor]. right. exists "a". reflexivity. }
  assert (KF : keeps_first_name hash_name tally_names (mkInv "add" [] []) (map (wflag_of wc_file two_texts) (v_flags wc_file))).
  { intros seed n n' l l' name name'. unfold tally_names. cbn [cmd_name String.eqb Ascii.eqb Bool.eqb]. rewrite !at_hash_name. cbn [fst snd]. now rewrite !unary_reads. }
  assert (IFF := fun names => C89_wc_file_iff shipped_dir "add" (mkInv "add" [] []) [] (mkInv "wc" [Flag "-l"] ["f"]) wc_file 1 tally_names unary_wc hash_name names two_texts two_parts 0
    P (Forall2_nil _) KF eq_refl (Forall_cons (P := fun fo => In (fo_name fo) wc_columns) (Flag "-l") (or_introl eq_refl) (Forall_nil _)) (conj eq_refl eq_refl) R (or_introl eq_refl) tally_nwc FR AR CU).
  split; [vm_compute; reflexivity|]. split; [exact P|]. split; [vm_compute; reflexivity|].
  assert (OK : nevaluates tally_names (put 1 "part1" two_names) shipped_dir (custom_chunks CUSTOM_2_ARY "add") wc_file two_texts two_parts (nrun tally_names (put 1 "part1" two_names) 0 wc_file two_texts))
    by (apply IFF; reflexivity).
  split; [|split].
  - apply (C88_blind tally_names two_names "part1" shipped_dir _ wc_file 1 two_texts two_parts _ R) in OK; [exact OK| |exact FR].
    intros base M. inversion M; subst; [|discriminate]. split; [apply R|apply incl_refl].
  - intros X. apply IFF in X. discriminate X.
  - apply IFF. reflexivity.
Qed.
