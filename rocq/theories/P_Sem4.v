(** * C63: pairs of adjacent lines with auxiliary results *)
From Coq Require Import Lia.
Require Import Verif.PyBase Verif.JsonData Verif.Parser Verif.Access Verif.IOInfo Verif.IOVars
  Verif.Transformers Verif.ParaTypes Verif.ParaGen Verif.MapperAgg Verif.SpecLists Verif.SpecIO Verif.SpecVars Verif.SpecPara
  Verif.ParserFacts Verif.ParaProps Verif.ShippedData Verif.MapperFacts Verif.P_Para Verif.SpecSem Verif.SemFacts Verif.SemRun Verif.SemProps
  Verif.SemSystem Verif.P_Sem Verif.SpecSem4 Verif.SemProps4.

Lemma two_results F c s t s' : aux_runs F shipped_dir bigrams_par c s t s' -> aux_number 2 t.
Proof.
  intros R.
  induction R as [s x y aux sd m G|s s1 s2 l r o aux sd k a R1 IH1 R2 IH2 G].
  - unfold get_actual_mapper in G. cbn [p_info_mapper_aggregator bigrams_par] in G.
    destruct (Nat.eqb_spec (length aux) 2) as [E|E]; [|discriminate]. cbn. auto.
  - split; [|split; assumption]. cbn [p_aggregator bigrams_par] in G. unfold get_actual_2_ary_aggregator_with_aux in G.
    destruct (Nat.eqb_spec (length (aux_of l)) (length (aux_of r))) as [E|E]; [|discriminate]. cbn [assert_ bind] in G.
    destruct (Nat.eqb_spec (length (aux_of l)) (length aux)) as [E'|E']; [|discriminate].
    assert (X : forall t, aux_number 2 t -> length (aux_of t) = 2) by (intros [] (L & _); exact L). cbn [aux_of]. rewrite <- E'. now apply X.
Qed.

(** Every plan for the offered parallelizer can be run, in one way, and gives the pairs within
    the parts and one line across each cut that touches a part that is not empty. *)
Theorem C63_result : forall inv p c B F s t,
  cmd_name inv = "bigrams_aux" -> offered shipped_dir inv p -> v_ops c = [] -> bigram_system B F ->
  NoDup (aux_vars t) -> aux_number 2 t ->
  exists s', aux_runs F shipped_dir p c s t s' /\ (forall s'', aux_runs F shipped_dir p c s t s'' -> s'' = s') /\
    s' (aux_root t) = unlines (with_seams (map (fun v => lines (s v)) (aux_parts t))) /\
    (forall v, ~ In v (aux_vars t) \/ In v (aux_parts t) -> s' v = s v).
Proof.
  intros inv p c B F s t C O NO BS N A. apply bigrams_offered in O as ->; [|exact C].
  destruct (plan_run B F BS c NO t s N A) as (s' & h & u & R & _ & P & _ & _ & K). exists s'. split; [exact R|]. split; [|split].
  - intros s'' R'. eapply runs_fun; eassumption.
  - exact P.
  - intros v [I|I]; apply K.
    + intros J. apply I. now apply written_in.
    + now apply parts_not_written.
Qed.
Print Assumptions C63_result.

(** The result is right exactly if no part is empty, or all are. *)
Theorem C63_iff : forall inv p c i B F s t s' seed,
  cmd_name inv = "bigrams_aux" -> offered shipped_dir inv p ->
  reads_one c i -> v_cmd c = "bigrams_aux" -> v_flags c = [] -> v_ops c = [] -> bigram_system B F ->
  NoDup (aux_vars t) -> cut_at_lines (s i) (map s (aux_parts t)) ->
  aux_runs F shipped_dir p c s t s' ->
  (s' (aux_root t) = run B seed c s <->
   Forall (fun v => s v <> "") (aux_parts t) \/ Forall (fun v => s v = "") (aux_parts t)).
Proof.
  intros inv p c i B F s t s' seed C O RO VC VF VO BS N CUT R.
  assert (A : aux_number 2 t).
  { clear -C O R. apply bigrams_offered in O as ->; [|exact C]. eapply two_results; exact R. }
  apply bigrams_offered in O as ->; [|exact C].
  destruct (plan_run B F BS c VO t s N A) as (s1 & h & u & R1 & _ & P & _). pose proof (runs_fun F c t _ _ _ R R1) as ->.
  rewrite P. rewrite (run_original B seed c i s RO), VC, VF, VO. cbn [map]. destruct BS as (HB & _). rewrite HB. unfold bigrams.
  rewrite (cut_lines _ _ CUT), <- concat_lines, map_map. unfold part_lines. set (ls := map (fun v => lines (s v)) (aux_parts t)).
  assert (E1 : Forall (fun v => s v <> "") (aux_parts t) <-> Forall (fun l => l <> []) ls).
  { unfold ls. rewrite Forall_map. split; apply Forall_impl; intros v; rewrite lines_nil; auto. }
  assert (E2 : Forall (fun v => s v = "") (aux_parts t) <-> Forall (fun l => l = []) ls).
  { unfold ls. rewrite Forall_map. split; apply Forall_impl; intros v; rewrite lines_nil; auto. }
  rewrite E1, E2. split.
  - intros E. destruct (empty_or_not ls) as [Y|[Y|(X & X')]]; [now left|now right|]. exfalso. apply (seams_wrong ls X X').
    apply unlines_inj; [| |exact E].
    + apply seams_clean. unfold ls. apply Forall_map, Forall_forall. intros v _. apply lines_clean.
    + apply pairs_clean. clear. unfold ls. induction (aux_parts t) as [|v l IH]; [constructor|]. cbn. apply Forall_app. split; [apply lines_clean|exact IH].
  - intros H. now rewrite (seams_right ls H).
Qed.
Print Assumptions C63_iff.

(** Two auxiliary results for each process are needed. *)
Theorem C63_two_results : forall inv p c F s t s',
  cmd_name inv = "bigrams_aux" -> offered shipped_dir inv p -> aux_runs F shipped_dir p c s t s' -> aux_number 2 t.
Proof.
  intros inv p c F s t s' C O R. apply bigrams_offered in O as ->; [|exact C].
  eapply two_results; exact R.
Qed.
Print Assumptions C63_two_results.

(** A system with these commands *)
Definition bigram_B : behaviour := fun _ cmd _ _ inputs => if String.eqb cmd "bigrams_aux" then bigrams (joined inputs) else "".
Definition bigram_F : positional := fun _ cmd _ files =>
  match files with
  | [x; _; _; _] => if String.eqb cmd "bigram_aux_map" then [(1, bigrams x); (2, unlines (firstn 1 (lines x))); (3, unlines (last_line (lines x)))] else []
  | [i1; h1; t1; i2; h2; t2; _; _; _] =>
      if String.eqb cmd "bigram_aux_reduce" then [(6, i1 +++ unlines (paste (lines t1) (lines h2)) +++ i2); (7, h1); (8, t2)] else []
  | _ => []
  end.
Lemma bigram_system_ok : bigram_system bigram_B bigram_F.
Proof.
  split; [|split].
  - intros seed x. unfold bigram_B. cbn. now rewrite append_nil.
  - intros seed x o1 o2 o3. exists (unlines (firstn 1 (lines x))), (unlines (last_line (lines x))). split; [|split; [|reflexivity]];
      apply records_terminated; pose proof (lines_clean x) as L.
    + destruct L; cbn; repeat constructor; assumption.
    + unfold last_line. apply Forall_rev in L. destruct (rev (lines x)); repeat constructor. now inversion L.
  - reflexivity.
Qed.
Definition bigrams_civ : civ := filter_civ "bigrams_aux" [] [].
Definition three_parts (a b c : string) : store := fun v => nth (Z.to_nat v) ["" ; a +++ b +++ c; ""; a; b; c] "".
Definition three_plan : aux_plan :=
  ANode (ANode (ALeaf 3 6 [7%Z; 8%Z] 0) (ALeaf 4 9 [10%Z; 11%Z] 0) 12 [13%Z; 14%Z] 0) (ALeaf 5 15 [16%Z; 17%Z] 0) 18 [19%Z; 20%Z] 0.
Lemma three_nodup : NoDup (aux_vars three_plan).
Proof. cbn. repeat constructor; cbn; lia. Qed.
Definition nl : string := String newline "".
(** Three parts with two, one and two lines: the plan gives the pairs of the whole text. *)
Example C63_case : exists inv s', parse shipped_dir "bigrams_aux" = Ok inv /\ offered shipped_dir inv bigrams_par /\
  reads_one bigrams_civ 1 /\ let s := three_parts ("a" +++ nl +++ "b" +++ nl) ("c" +++ nl) ("d" +++ nl +++ "e") in
  cut_at_lines (s 1%Z) (map s (aux_parts three_plan)) /\
  aux_runs bigram_F shipped_dir bigrams_par bigrams_civ s three_plan s' /\
  s' (aux_root three_plan) = run bigram_B 0 bigrams_civ s /\ lines (s' (aux_root three_plan)) = ["a" +++ tab +++ "b"; "b" +++ tab +++ "c"; "c" +++ tab +++ "d"; "d" +++ tab +++ "e"].
Proof.
  assert (P : parse shipped_dir "bigrams_aux" = Ok (mkInv "bigrams_aux" [] [])) by (vm_compute; reflexivity).
  assert (O : offered shipped_dir (mkInv "bigrams_aux" [] []) bigrams_par) by (eapply offered_first; [vm_compute; reflexivity|now left]).
  set (s := three_parts ("a" +++ nl +++ "b" +++ nl) ("c" +++ nl) ("d" +++ nl +++ "e")).
  destruct (C63_result (mkInv "bigrams_aux" [] []) bigrams_par bigrams_civ bigram_B bigram_F s three_plan eq_refl O eq_refl bigram_system_ok three_nodup) as (s' & R & _ & E & _).
  { cbn. tauto. }
  assert (CUT : cut_at_lines (s 1%Z) (map s (aux_parts three_plan))).
  { split; [reflexivity|]. apply Forall_cons; [right; now exists ("a" +++ nl +++ "b")|]. apply Forall_cons; [right; now exists "c"|constructor]. }
  exists (mkInv "bigrams_aux" [] []), s'. split; [exact P|]. split; [exact O|]. split; [now apply filter_civ_reads|]. cbv zeta. split; [exact CUT|].
  split; [exact R|]. split.
  - eapply (C63_iff (mkInv "bigrams_aux" [] []) bigrams_par bigrams_civ 1); try reflexivity; try eassumption; [now apply filter_civ_reads|exact bigram_system_ok|exact three_nodup|].
    left. repeat constructor; discriminate.
  - rewrite E. vm_compute. reflexivity.
Qed.
(** An empty part in the middle: wrong for every system with these commands. *)
Theorem C63_empty_part_refuted : exists inv p s, parse shipped_dir "bigrams_aux" = Ok inv /\ offered shipped_dir inv p /\
  cut_at_lines (s 1%Z) (map s (aux_parts three_plan)) /\ fresh_aux bigrams_civ three_plan /\
  forall B F, bigram_system B F -> exists s', aux_runs F shipped_dir p bigrams_civ s three_plan s' /\
    lines (s' (aux_root three_plan)) = ["a" +++ tab; tab +++ "b"] /\
    forall seed, lines (run B seed bigrams_civ s) = ["a" +++ tab +++ "b"].
Proof.
  assert (O : offered shipped_dir (mkInv "bigrams_aux" [] []) bigrams_par) by (eapply offered_first; [vm_compute; reflexivity|now left]).
  exists (mkInv "bigrams_aux" [] []), bigrams_par, (three_parts ("a" +++ nl) "" "b"). split; [vm_compute; reflexivity|]. split; [exact O|].
  split; [split; [reflexivity|]; apply Forall_cons; [right; now exists "a"|]; apply Forall_cons; [now left|constructor]|].
  split; [split; [exact three_nodup|now apply filter_civ_fresh]|]. intros B F BS.
  destruct (C63_result (mkInv "bigrams_aux" [] []) bigrams_par bigrams_civ B F (three_parts ("a" +++ nl) "" "b") three_plan eq_refl O eq_refl BS three_nodup) as (s' & R & _ & E & _).
  { cbn. tauto. }
  exists s'. split; [exact R|]. split; [rewrite E; vm_compute; reflexivity|]. intros seed.
  rewrite (run_original B seed bigrams_civ 1) by now apply filter_civ_reads. destruct BS as (HB & _). cbn [v_cmd v_flags v_ops bigrams_civ filter_civ map].
  rewrite HB. vm_compute. reflexivity.
Qed.
Print Assumptions C63_empty_part_refuted.
