(** * C85: what generators written with the helpers give *)
From Coq Require Import Lia.
Require Import Verif.PyBase Verif.JsonData Verif.Parser Verif.Access Verif.IOInfo Verif.IOGen Verif.ShippedFacts Verif.IOVars
  Verif.Transformers Verif.ParaTypes Verif.ParaGen Verif.GenHelpers Verif.MapperAgg Verif.SpecLists Verif.SpecIO Verif.SpecVars Verif.SpecPara
  Verif.ParserFacts Verif.ParaProps Verif.Shlex Verif.Registry Verif.SpecRegistry Verif.RegistryFacts Verif.ShippedData Verif.SpecMapper Verif.MapperFacts Verif.P_Para Verif.P_Mapper
  Verif.SpecSem Verif.SemFacts Verif.SemRun Verif.SemProps
  Verif.SemSystem Verif.P_Sem Verif.SpecSem4 Verif.SemProps4 Verif.SpecSem6 Verif.P_Sem6 Verif.P_Registry Verif.PipeFacts Verif.SpecHelpers.

(** ** What is built *)
Lemma call_adds k i : exists l, adds k l /\
  call_helper k i = Ok (mkPI (parallelizer_list i ++ l) (round_robin_compatible_with_cat i) (match k with SetCommutative => true | _ => is_commutative i end)).
Proof.
  destruct i as [pl rr co].
  destruct k; (eexists; split; [|reflexivity || (cbn; rewrite app_nil_r; reflexivity)]); try (constructor; fail);
    apply adds_one; try reflexivity; intros q; discriminate.
Qed.
(** A method that makes these calls never raises.  It gives the parallelizers in the order of the
    calls, and commutativity exactly if it was declared. *)
Theorem C85_built : forall ks i, exists i' ls,
  call_helpers ks i = Ok i' /\ Forall2 adds ks ls /\ parallelizer_list i' = parallelizer_list i ++ List.concat ls /\
  round_robin_compatible_with_cat i' = round_robin_compatible_with_cat i /\
  (is_commutative i' = true <-> is_commutative i = true \/ In SetCommutative ks).
Proof.
  induction ks as [|k ks IH]; intros i.
  { exists i, []. cbn. rewrite app_nil_r. intuition constructor. }
  destruct (call_adds k i) as (l & A & E). cbn [call_helpers]. rewrite E. cbn [bind].
  match goal with |- context [call_helpers ks ?j] => destruct (IH j) as (i' & ls & R & F & L & RR & C) end.
  cbn [parallelizer_list round_robin_compatible_with_cat is_commutative] in *.
  exists i', (l :: ls). split; [exact R|]. split; [now constructor|]. split; [cbn [List.concat]; now rewrite L, app_assoc|]. split; [exact RR|].
  rewrite C. cbn [In]. destruct k; intuition discriminate.
Qed.
Print Assumptions C85_built.
(** Each call adds one list only, so this determines what is built. *)
Theorem C85_determined : forall k l l', adds k l -> adds k l' -> l = l'.
Proof.
  intros k l l' A A'. destruct A as [p| |k p N D J M S U]; inversion A' as [q|q|k' q N' D' J' M' S' U']; subst; auto;
    try discriminate; try (exfalso; eapply N; reflexivity); try (exfalso; eapply N'; reflexivity).
  destruct p, q; cbn in *. congruence.
Qed.
Print Assumptions C85_determined.
(** A command that is registered newly with a class whose [generate_info] makes these calls has this
    information, and its inferred list holds each consecutive-chunks parallelizer a second time
    with the unwrap flag if commutativity was declared. *)
Theorem C85_registered : forall cls (run : cls -> invocation -> result para_info) k p l1 l2 cmd r c (g : invocation -> list helper) inv,
  ~ In cmd (map fst l1) -> cmd_name inv = cmd -> (exists im, import_generators p (l1 ++ (cmd, r) :: l2) = Imported im) ->
  class_in p k r c -> (forall inv, run c inv = call_helpers (g inv) new_para_info) ->
  exists i ls, answer run k p (l1 ++ (cmd, r) :: l2) inv = Some i /\ Forall2 adds (g inv) ls /\ parallelizer_list i = List.concat ls /\
    exists copies i', chunk_copies (List.concat ls) copies /\
      inferring i (List.concat ls ++ (if is_commutative i then copies else [])) i' /\ (is_commutative i = true <-> In SetCommutative (g inv)).
Proof.
  intros cls run k p l1 l2 cmd r c g inv N C I K R. destruct (C85_built (g inv) new_para_info) as (i & ls & E & F & L & _ & CO).
  exists i, ls. split; [apply C74_new; auto; exists c; split; auto; now rewrite R|]. split; [exact F|]. cbn in L. split; [exact L|].
  destruct (C27_inferred i) as (copies & CC & INF). rewrite L in *. exists copies. eexists. split; [exact CC|]. split; [exact INF|].
  rewrite CO. cbn. intuition discriminate.
Qed.
Print Assumptions C85_registered.

(** ** When the concatenation is right *)
Lemma conc_stateless k l p : In k [CcSeqConc; RrSeqConc] -> adds k l -> In p l -> In p (stateless SpecPara.concat).
Proof.
  intros K A I. destruct A as [q| |k p' N D J M S U]; [destruct K as [K|[K|[]]]; discriminate..|]. destruct I as [->|[]].
  destruct p as [sp m a s u]. destruct K as [<-|[<-|[]]]; cbn in *; injection D as <-; injection J as <-; subst; [left|right; left]; reflexivity.
Qed.
Lemma cut_offered p : In p (stateless SpecPara.concat) -> exists dir inv, offered dir inv p.
Proof.
  intros I. exists shipped_dir, (mkInv "cut" [] []). eapply offered_first; [vm_compute; reflexivity|exact I].
Qed.
(** For any command, whether annotated in the repository or not: the plans for what these two
    helpers add give what the command gives exactly if the command can be run piece by piece. *)
Theorem C85_concat_iff : forall k l p c i B Q dir,
  In k [CcSeqConc; RrSeqConc] -> adds k l -> In p l -> reads_one c i -> tight c -> is_cat B -> tail_closed Q ->
  parallel_ok B dir p c i (fun n => n <> 0) Q <-> piecewise B c i Q.
Proof.
  intros k l p c i B Q dir K A I R T CB QC. pose proof (conc_stateless k l p K A I) as S. destruct (cut_offered p S) as (d & inv & O).
  eapply C68_concat_iff; eauto. destruct S as [<-|[<-|[]]]; reflexivity.
Qed.
Print Assumptions C85_concat_iff.

(** ** What declaring commutativity claims *)
Definition outf (B : behaviour) (c : civ) (s : store) (sd : nat) (x : string) : string :=
  B sd (v_cmd c) (map (wflag_of c s) (v_flags c)) (map (word_of c s) (v_ops c)) [x].
Lemma eval_two B dir p c i s z sd1 sd2 a b r : reads_one c i -> p_mapper p = seq_mapper -> p_info_mapper_aggregator p = 0 ->
  p_aggregator p = SpecPara.concat -> is_cat B -> (forall v, (z <= v)%Z -> v_acc c v = None /\ ~ In v (vars c)) ->
  s z = a -> s (z + 1)%Z = b ->
  evaluates B dir p c s (Node (z + 4)%Z 0 [Leaf z (z + 2)%Z sd1; Leaf (z + 1)%Z (z + 3)%Z sd2]) r ->
  r = outf B c s sd1 a +++ outf B c s sd2 b.
Proof.
  intros R M1 M2 M3 CB Z2 S1 S2 E.
  assert (X : forall x y, x <> y -> (z <= x)%Z -> (z <= y)%Z -> exists m, get_actual_mapper p c x y [] = Ok (Some m) /\ forall sd, run B sd m s = outf B c s sd (s x)).
  { intros x y N L1 L2. destruct (mapper_run p c i x y R M1 M2 N (Z2 x L1) (Z2 y L2)) as (m & G & _ & Rm). exists m. split; [exact G|].
    intros sd'. now rewrite Rm. }
  destruct (X z (z + 2)%Z) as (m1 & G1 & R1); [lia..|]. destruct (X (z + 1)%Z (z + 3)%Z) as (m2 & G2 & R2); [lia..|].
  apply eval_node in E as (outs & k & ag & EV & GA & ER).
  apply eval_cons in EV as (r1 & rs & -> & E1 & EV). apply eval_cons in EV as (r2 & rs' & -> & E2 & EV). inversion EV; subst rs'.
  apply eval_leaf in E1 as (m1' & G1' & ->). apply eval_leaf in E2 as (m2' & G2' & ->).
  assert (H1 : m1' = m1) by congruence. assert (H2 : m2' = m2) by congruence. subst m1' m2'.
  destruct (cat_run dir c [z + 2; z + 3]%Z (z + 4)%Z [run B sd1 m1 s; run B sd2 m2 s]) as (a' & GA' & _ & RA).
  { repeat constructor; cbn; lia. }
  { reflexivity. }
  { discriminate. }
  rewrite M3 in GA. cbn [map root] in GA. assert (HA : ag = a') by congruence. subst ag.
  cbn [map root] in ER. rewrite RA in ER by exact CB. rewrite R1, R2, S1, S2 in ER. cbn [joined fold_right] in ER.
  rewrite append_nil in ER. exact ER.
Qed.
Lemma lines_unlines x : lines (unlines (lines x)) = lines x.
Proof. apply records_terminated, records_clean. Qed.
Lemma lines_cat a b : ends_line a -> lines (a +++ b) = lines a ++ lines b.
Proof. apply records_app. Qed.
(** The copies with the unwrap flag are right exactly if the command can be run piece by piece
    and does not see the order of the lines. *)
Theorem C85_commutative_iff : forall l p c i B dir,
  adds CcSeqConc l -> In p l -> reads_one c i -> tight c -> is_cat B ->
  parallel_ok B dir (with_splitter ROUND_ROBIN_UNWRAP_FLAG p) c i (fun n => n <> 0) (fun _ => True) <->
  piecewise B c i (fun _ => True) /\ orderless B c i.
Proof.
  intros l p c i B dir A I R T CB.
  assert (F : p = chunks SpecPara.concat).
  { pose proof (conc_stateless CcSeqConc l p (or_introl eq_refl) A I) as [<-|[<-|[]]]; [reflexivity|].
    inversion A; subst. destruct I as [->|[]]. discriminate. }
  subst p. clear A I l. set (p := with_splitter ROUND_ROBIN_UNWRAP_FLAG (chunks SpecPara.concat)).
  assert (PR : forall s sd x, run B sd c (put i x s) = outf B c s sd x) by (intros; apply put_run; exact R).
  split.
  - intros OK. destruct (fresh_vars c i T) as (z & Z1 & Z2).
    assert (TWO : forall s sd sd1 sd2 x a b, Permutation (lines x) (lines a ++ lines b) -> outf B c s sd x = outf B c s sd1 a +++ outf B c s sd2 b).
    { intros s sd sd1 sd2 x a b PE. set (s' := connect [i; z; z + 1]%Z [x; a; b] s).
      assert (Si : s' i = x) by (unfold s'; cbn; now rewrite Z.eqb_refl).
      assert (S1 : s' z = a).
      { unfold s'; cbn. destruct (Z.eqb_spec z i); [lia|]. now rewrite Z.eqb_refl. }
      assert (S2 : s' (z + 1)%Z = b).
      { unfold s'; cbn -[Z.add]. destruct (Z.eqb_spec (z + 1) i); [lia|]. destruct (Z.eqb_spec (z + 1) z); [lia|]. now rewrite Z.eqb_refl. }
      assert (W : forall sd y, outf B c s' sd y = outf B c s sd y).
      { intros sd' y. unfold outf. destruct (words_only c i s' s R) as (-> & ->); [|reflexivity].
        intros v J N. apply connect_out. intros [E|[E|[E|[]]]]; [now apply N| |]; apply (Z2 v); auto; lia. }
      pose proof (OK s' (Node (z + 4)%Z 0 [Leaf z (z + 2)%Z sd1; Leaf (z + 1)%Z (z + 3)%Z sd2]) sd) as E.
      apply (eval_two B dir p c i s' z sd1 sd2 a b) in E; auto.
      - rewrite (run_original B sd c i s' R), Si in E. change (outf B c s' sd x = outf B c s' sd1 a +++ outf B c s' sd2 b) in E. now rewrite !W in E.
      - split; [cbn; repeat constructor; cbn; lia|]. intros v J. apply Z2. cbn in J. lia.
      - cbn. auto.
      - cbn [p with_splitter p_splitter distributes parts flat_map map app]. rewrite Si, S1, S2, app_nil_r. exact PE. }
    assert (NIL : forall s sd, outf B c s sd "" = "").
    { intros s sd. assert (E : outf B c s sd "" = outf B c s sd "" +++ outf B c s sd "") by (apply TWO; constructor).
      apply (f_equal String.length) in E. rewrite append_length in E. destruct (outf B c s sd ""); [reflexivity|cbn in E; lia]. }
    split.
    + intros s sd sd1 sd2 a b EA _. rewrite !PR. apply TWO. rewrite lines_cat by exact EA. reflexivity.
    + intros s sd sd' x y PE. rewrite !PR. rewrite (TWO s sd 0 sd' x "" y PE), NIL. reflexivity.
  - intros (PW & OL) s t seed FR AR _ DI. cbn [p with_splitter p_splitter distributes] in DI.
    assert (OL' : forall sd sd' x y, Permutation (lines x) (lines y) -> outf B c s sd x = outf B c s sd' y).
    { intros. rewrite <- !PR. now apply OL. }
    assert (PW' : forall a b, ends_line a -> outf B c s 0 (a +++ b) = outf B c s 0 a +++ outf B c s 0 b).
    { intros. rewrite <- !PR. now apply PW. }
    assert (J : forall ps, outf B c s 0 (joined (map (fun x => unlines (lines x)) ps)) = joined (map (outf B c s 0) ps) /\
      lines (joined (map (fun x => unlines (lines x)) ps)) = flat_map lines ps).
    { induction ps as [|x ps (IH1 & IH2)].
      - split; [|reflexivity]. cbn. assert (E := PW' "" "" (or_introl eq_refl)). cbn [String.append] in E. apply (f_equal String.length) in E. rewrite append_length in E.
        destruct (outf B c s 0 ""); [reflexivity|cbn in E; lia].
      - cbn [map joined fold_right flat_map]. change (fold_right String.append "" ?m) with (joined m). split.
        + rewrite PW' by apply unlines_ends. rewrite IH1. f_equal. apply OL'. now rewrite lines_unlines.
        + rewrite lines_cat by apply unlines_ends. now rewrite lines_unlines, IH2. }
    destruct (J (map s (parts t))) as (J1 & J2).
    assert (E : run B seed c s = joined (map (fun v => outf B c s 0 (s v)) (parts t))).
    { rewrite (run_original B seed c i s R). fold (outf B c s seed (s i)). rewrite map_map in J1. change (map (fun x => outf B c s 0 (s x)) (parts t)) with (map (fun v => outf B c s 0 (s v)) (parts t)) in J1.
      rewrite <- (map_map s (outf B c s 0)), <- (proj1 (J (map s (parts t)))). apply OL'. rewrite J2. exact DI. }
    rewrite E. apply (concat_plan B dir p c i s (outf B c s 0)); auto. intros sd v _. fold (outf B c s sd (s v)). now apply OL'.
Qed.
Print Assumptions C85_commutative_iff.
(** So declaring commutativity is wrong for every command that prints two texts that do not
    commute. *)
Theorem C85_commutative_wrong : forall l p c i B dir s a b,
  adds CcSeqConc l -> In p l -> reads_one c i -> tight c -> is_cat B -> ends_line a -> ends_line b ->
  run B 0 c (put i a s) +++ run B 0 c (put i b s) <> run B 0 c (put i b s) +++ run B 0 c (put i a s) ->
  ~ parallel_ok B dir (with_splitter ROUND_ROBIN_UNWRAP_FLAG p) c i (fun n => n <> 0) (fun _ => True).
Proof.
  intros l p c i B dir s a b A I R T CB EA EB N OK. apply (proj1 (C85_commutative_iff l p c i B dir A I R T CB)) in OK as (PW & OL).
  apply N. rewrite <- (PW s 0 0 0 a b EA Logic.I), <- (PW s 0 0 0 b a EB Logic.I). apply OL. rewrite !lines_cat by assumption. apply Permutation_app_comm.
Qed.
Print Assumptions C85_commutative_wrong.

(** ** Aggregators for adjacent lines *)
(** No plan with an aggregation can be run for what the other helpers add: these aggregators are not there. *)
Theorem C85_adjacent : forall k l p B dir c s o seed ts r,
  In k [IfSeqAdjm; CcSeqAdjm; RrSeqAdjm; RrSeqAdjs; CcSeqAdjs] \/ (exists f impl, k = RrSeqAdjf f impl \/ k = CcSeqAdjf f impl) ->
  adds k l -> In p l -> ~ evaluates B dir p c s (Node o seed ts) r.
Proof.
  intros k l p B dir c s o seed ts r K A I E. apply eval_node in E as (outs & kk & a & _ & G & _).
  destruct A as [q| |k p' N D J M S U]; [..|destruct I as [->|[]]].
  - destruct K as [K|(f & im & [K|K])]; [|discriminate..]. cbn in K. intuition discriminate.
  - destruct I.
  - destruct K as [K|(f & im & K)].
    + assert (X : p_aggregator p = adj_merge \/ p_aggregator p = adj_seq).
      { cbn in K. repeat destruct K as [<-|K]; cbn in J; try (injection J as <-; auto); destruct K. }
      destruct X as [X|X]; rewrite X in G; discriminate.
    + assert (X : p_aggregator p = AggString ADJ_LINES_FUNC f im) by (destruct K as [->| ->]; cbn in J; congruence). rewrite X in G.
      destruct im; [|discriminate]. destruct (proj1 (C29_obtainable_refuted dir c (map root ts) o f)) as (e & Y).
      unfold make_aggregator_spec_from_string in Y. congruence.
Qed.
Print Assumptions C85_adjacent.

(** ** Files that are treated one by one *)
(** The helpers for individual files are for commands that read several files.  For such an
    invocation no mapper can be obtained. *)
Theorem C85_individual_files_refuted : forall k l p c i j x y,
  In k [IfSeqConc; IfSeqAdjm] -> adds k l -> In p l -> consistent c -> fresh_for c [x; y] ->
  i <> j -> with_access c STREAM_INPUT i -> with_access c STREAM_INPUT j -> In i (vars c) -> In j (vars c) ->
  p_splitter p = INDIV_FILES /\ are_all_parts_implemented p = agg_is_implemented (p_aggregator p) /\
  exists e, get_actual_mapper p c x y [] = Raise e /\ (e = IndexError \/ e = AssertionError).
Proof.
  intros k l p c i j x y K A I C F N Wi Wj Ii Ij.
  destruct A as [q| |k p' N' D J M S U]; [destruct K as [K|[K|[]]]; discriminate..|]. destruct I as [->|[]].
  split; [destruct K as [<-|[<-|[]]]; cbn in D; congruence|]. split; [unfold are_all_parts_implemented; now rewrite M|].
  unfold get_actual_mapper. rewrite U, M. cbn [length Nat.eqb assert_ bind].
  destruct (C43_one_each seq_mapper c c x y eq_refl) as [(_ & i' & o & KI & _)|(E & _)]; auto; [now constructor|].
  exfalso. apply N. assert (Mi : In i [i']) by (apply (kept_in _ _ _ i KI); auto). assert (Mj : In j [i']) by (apply (kept_in _ _ _ j KI); auto).
  cbn in Mi, Mj. intuition congruence.
Qed.
Print Assumptions C85_individual_files_refuted.

(** ** Cases *)
(** A command tick that prints a line for each line, and any other command prints what it reads *)
Definition tick : behaviour := fun _ cmd _ _ inputs =>
  if String.eqb cmd "tick" then unlines (map (fun _ => "x") (flat_map lines inputs)) else joined inputs.
Definition tick_civ : civ := filter_civ "tick" [] [].
Definition copy_civ : civ := filter_civ "copy" [] [].
Lemma tick_cat : is_cat tick.
Proof. intros seed ops inputs _. reflexivity. Qed.
Example C85_case : adds CcSeqConc [chunks SpecPara.concat] /\
  parallel_ok tick shipped_dir (with_splitter ROUND_ROBIN_UNWRAP_FLAG (chunks SpecPara.concat)) tick_civ 1 (fun n => n <> 0) (fun _ => True) /\
  parallel_ok tick shipped_dir (chunks SpecPara.concat) copy_civ 1 (fun n => n <> 0) (fun _ => True) /\
  ~ parallel_ok tick shipped_dir (with_splitter ROUND_ROBIN_UNWRAP_FLAG (chunks SpecPara.concat)) copy_civ 1 (fun n => n <> 0) (fun _ => True).
Proof.
  assert (A : adds CcSeqConc [chunks SpecPara.concat]) by (apply adds_one; try reflexivity; intros q; discriminate).
  assert (R : forall cmd, reads_one (filter_civ cmd [] []) 1) by (intros; now apply filter_civ_reads).
  assert (T : forall cmd, tight (filter_civ cmd [] [])) by (intros; now apply filter_civ_tight).
  split; [exact A|]. split; [|split].
  - apply (C85_commutative_iff _ _ tick_civ 1%Z tick shipped_dir A (or_introl eq_refl) (R _) (T _) tick_cat).
    split.
    + intros s sd sd1 sd2 a b EA _. rewrite !put_run by apply R. unfold tick. cbn [v_cmd tick_civ filter_civ String.eqb Ascii.eqb Bool.eqb flat_map].
      rewrite !app_nil_r, lines_cat, map_app by exact EA. unfold unlines. apply terminated_app.
    + intros s sd sd' x y PE. rewrite !put_run by apply R. unfold tick. cbn [v_cmd tick_civ filter_civ String.eqb Ascii.eqb Bool.eqb flat_map]. rewrite !app_nil_r.
      f_equal. apply Permutation_length in PE. revert PE. generalize (lines y). generalize (lines x). intros m. induction m as [|u m IH]; intros [|w m'] E; try discriminate; [reflexivity|].
      cbn. f_equal. apply IH. now injection E.
  - apply (C85_concat_iff CcSeqConc _ _ copy_civ 1%Z tick (fun _ => True) shipped_dir (or_introl eq_refl) A (or_introl eq_refl) (R _) (T _) tick_cat); [intros ? ? _ _; exact I|].
    intros s sd sd1 sd2 a b _ _. rewrite !put_run by apply R. unfold tick. cbn [v_cmd copy_civ filter_civ String.eqb Ascii.eqb Bool.eqb joined fold_right]. now rewrite !append_nil.
  - apply (C85_commutative_wrong _ _ copy_civ 1%Z tick shipped_dir (fun _ => "") (unlines ["a"]) (unlines ["b"]) A (or_introl eq_refl) (R _) (T _) tick_cat).
    + apply unlines_ends.
    + apply unlines_ends.
    + vm_compute. discriminate.
Qed.
(** tick added to the repository, with a class that adds both concatenations and declares
    commutativity if it has no operands *)
Definition tick_calls (inv : invocation) : list helper :=
  match operand_list inv with [] => [CcSeqConc; RrSeqConc; SetCommutative] | _ => [IfSeqConc; CcSeqAdjs] end.
Definition tick_package : package generator_class :=
  with_module repository_modules (module_name Parallelizability "Tick")
    (Present [("ParallelizabilityInfoGeneratorTick", ParaClass (fun _ inv => call_helpers (tick_calls inv)))]).
Example C85_registered_case :
  let table := cmd_representation ++ [("tick", "Tick")] in
  ~ In "tick" (map fst cmd_representation) /\ (exists im, import_generators tick_package table = Imported im) /\
  class_in tick_package Parallelizability "Tick" (ParaClass (fun _ inv => call_helpers (tick_calls inv))) /\
  answer (run_para shipped_dir) Parallelizability tick_package table (mkInv "tick" [] []) =
    Some (mkPI (stateless SpecPara.concat) false true) /\
  answer (run_para shipped_dir) Parallelizability tick_package table (mkInv "tick" [] ["f"]) =
    Some (mkPI [mkPar INDIV_FILES seq_mapper SpecPara.concat NO_ADD_INPUT 0; chunks adj_seq] false false).
Proof.
  cbv zeta. split; [cbn; intuition discriminate|]. split; [eexists; vm_compute; reflexivity|]. split; [eexists; split; vm_compute; reflexivity|].
  split; vm_compute; reflexivity.
Qed.
(** Two files for a command: no mapper *)
Definition two_files : civ :=
  mkCiv "tick" [] [PVar 0; PVar 1] PNone (PVar 2) (am_set (am_set (am_set am_empty 0 STREAM_INPUT) 1 STREAM_INPUT) 2 STREAM_OUTPUT).
Example C85_individual_files_case :
  consistent two_files /\ fresh_for two_files [3; 4]%Z /\ with_access two_files STREAM_INPUT 0 /\ with_access two_files STREAM_INPUT 1 /\
  adds IfSeqConc [mkPar INDIV_FILES seq_mapper SpecPara.concat NO_ADD_INPUT 0].
Proof.
  assert (V : vars two_files = [0; 1; 2]%Z) by reflexivity.
  split; [split; rewrite V; [repeat (constructor; [cbn; lia|]); constructor|intros v I; cbn in I; intuition (subst; discriminate)]|].
  split; [split; [repeat (constructor; [cbn; lia|]); constructor|intros w [<-|[<-|[]]]; rewrite V; cbn; lia]|].
  split; [reflexivity|]. split; [reflexivity|]. apply adds_one; try reflexivity; intros q; discriminate.
Qed.
